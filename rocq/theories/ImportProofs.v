(** The import theorems in terms of chunk sources and stores. *)
From Verif Require Import Base Pb PbProofs FSNode FSNodeProofs Dag DagProofs Builder Balanced Trickle Importer
  SpecFile BuilderProofs BalancedProofs TrickleProofs.

Lemma build_inv layout dbp fi spl w r w' : build layout dbp fi spl w = (r, w') ->
  (exists e, New dbp fi spl w = Err e /\ r = Err e /\ w' = w) \/
  exists d d', New dbp fi spl w = Ok d /\ layout d = (r, d') /\ w' = db_w d' /\ pend d = spl /\ db_w d = w /\
    cfg d = (pr_raw dbp, pr_maxlinks dbp, pr_builder dbp, pr_nocopy dbp) /\ db_offset d = 0.
Proof.
  unfold build, New. destruct (pr_nocopy dbp && negb fi) eqn:E.
  - intros H. injection H as <- <-. left. eauto.
  - intros H. right. destruct (layout _) as [r0 d'] eqn:El. injection H as <- <-. eexists _, d'.
    split; [reflexivity|]. split; [exact El|]. repeat split.
    unfold cfg. cbn. f_equal. destruct (pr_nocopy dbp), fi; try reflexivity. discriminate.
Qed.

(** Content and recorded size *)

Lemma file_dag_recorded n cs : file_dag n cs -> zlen (concat cs) < 18446744073709551616 -> recorded_size n (zlen (concat cs)).
Proof.
  intros H Hl. pose proof (zlen_nonneg (concat cs)) as Hn.
  destruct H as [p d|p b fs Hd Ht Hb Hs|p b fs ls css Hls Hu Hd Ht Hda HF Hb Hs]; cbn [recorded_size concat] in *.
  - now rewrite app_nil_r.
  - exists fs. split; [assumption|]. unfold FileSize, size. unfold getFilesize. rewrite Hs. rewrite app_nil_r in *.
    unfold mod64. rewrite Z.mod_small by lia. destruct Ht as [-> | ->]; reflexivity.
  - exists fs. split; [assumption|]. unfold FileSize, size. unfold getFilesize. rewrite Hs.
    unfold mod64. rewrite Z.mod_small by lia. destruct Ht as [-> | ->]; reflexivity.
Qed.

Definition import_facts (dbp : params) (spl : list event) (w w' : world) (root : node) : Prop :=
  exists chunks cs added, spl = map EvData chunks /\
    file_dag root cs /\ (chunks = [] /\ cs = [[]] \/ cs = chunks) /\
    Forall (fun c => zlen c <= BlockSizeLimit) chunks /\
    w_added w' = w_added w ++ added /\ all_in root added /\
    filestore_refs added = (if pr_nocopy dbp && pr_raw dbp then positions 0 chunks else []) /\ tsizes_exact root.

Definition uniform_for (dbp : params) : node -> Prop :=
  uniform (pr_raw dbp) (if pr_raw dbp then raw_prefix (pr_builder dbp) else proto_prefix (pr_builder dbp)) (proto_prefix (pr_builder dbp)).

Lemma balanced_facts fuel dbp fi spl w root w' : balanced_import fuel dbp fi spl w = (Ok root, w') ->
  import_facts dbp spl w w' root /\ uniform_for dbp root /\
  exists dp cs, left_full (pr_maxlinks dbp) dp root /\ file_dag root cs /\
    (1 <= Z.of_nat dp -> 2 <= pr_maxlinks dbp /\ pr_maxlinks dbp ^ (Z.of_nat dp - 1) < zlen cs).
Proof.
  intros H. apply build_inv in H as [(e & _ & H & _)|(d & d' & _ & HL & -> & Hp & Hw & Hc & Ho)]; [discriminate|].
  pose proof (BalancedProofs.Layout_spec _ fuel d Hc) as L. rewrite Ho, HL in L.
  specialize (L ltac:(split; [lia|reflexivity])). destruct L as (chunks & cs & added & L1 & L2 & L3 & L4 & L5 & L6 & L7 & L8 & L9 & L10 & dp & L11 & L12).
  cbn [fst snd] in *. assert (E1 : db_fs d = pr_nocopy dbp /\ db_raw d = pr_raw dbp /\ db_builder d = pr_builder dbp) by (unfold cfg in Hc; repeat split; congruence).
  destruct E1 as (E1 & E2 & E3). split; [|split].
  - exists chunks, cs, added. rewrite <- Hp, <- Hw. split; [assumption|]. repeat (split; [assumption|]). split; [|assumption].
    change (filestore_refs added) with (fs_entries added). rewrite L8. unfold entries. rewrite E1, E2, Ho. reflexivity.
  - unfold uniform_for. rewrite <- E2, <- E3. exact L10.
  - exists dp, cs. split; [assumption|]. split; [assumption|]. intros Hd. destruct (L12 Hd) as [X Y]. split; [assumption|].
    destruct L4 as [[-> ->]| ->]; [|assumption]. eapply Z.lt_le_trans; [exact Y|]. cbn. unfold zlen. cbn. lia.
Qed.

Lemma trickle_facts fuel dbp fi spl w root w' : 1 <= pr_maxlinks dbp -> (length spl < fuel)%nat ->
  trickle_import fuel dbp fi spl w = (Ok root, w') ->
  import_facts dbp spl w w' root /\ (spl <> [] -> uniform_for dbp root) /\
  w_has w' = w_has w /\ w_getok w' = w_getok w /\
  trickle (pr_maxlinks dbp) depthRepeat (leaf_of (pr_raw dbp) (pr_builder dbp) TRaw) (is_inner (pr_raw dbp, pr_maxlinks dbp, pr_builder dbp, pr_nocopy dbp)) (-1) root /\
  left_complete (pr_maxlinks dbp) depthRepeat root.
Proof.
  intros Hk Hf H. apply build_inv in H as [(e & _ & H & _)|(d & d' & _ & HL & -> & Hp & Hw & Hc & Ho)]; [discriminate|].
  pose proof (TrickleProofs.Layout_spec (pr_raw dbp, pr_maxlinks dbp, pr_builder dbp, pr_nocopy dbp) fuel d Hk Hc) as L. rewrite Ho, HL in L.
  specialize (L ltac:(split; [lia|reflexivity]) ltac:(rewrite Hp; exact Hf)).
  destruct L as (chunks & cs & added & L1 & L2 & L3 & L4 & L5 & L6 & L7 & L8 & L9 & L10 & L11 & L12 & L13 & L14).
  cbn [fst snd] in *. assert (E1 : db_fs d = pr_nocopy dbp /\ db_raw d = pr_raw dbp /\ db_builder d = pr_builder dbp) by (unfold cfg in Hc; repeat split; congruence).
  destruct E1 as (E1 & E2 & E3). split; [|split].
  - exists chunks, cs, added. rewrite <- Hp, <- Hw. split; [assumption|]. repeat (split; [assumption|]). split; [|assumption].
    change (filestore_refs added) with (fs_entries added). rewrite L8. unfold entries. rewrite E1, E2, Ho. reflexivity.
  - intros Hne. unfold uniform_for. rewrite <- E2, <- E3. apply L10. intros ->. apply Hne. rewrite <- Hp. exact L1.
  - rewrite <- Hw. auto.
Qed.

Lemma facts_content dbp spl w w' root : import_facts dbp spl w w' root ->
  exists chunks, spl = map EvData chunks /\ file_content root (concat chunks) /\ source_ok BlockSizeLimit chunks /\
    (zlen (concat chunks) < 18446744073709551616 -> recorded_size root (zlen (concat chunks))).
Proof.
  intros (chunks & cs & added & H1 & H2 & H3 & H4 & _). exists chunks. split; [assumption|].
  assert (E : concat chunks = concat cs) by (destruct H3 as [[-> ->]| ->]; reflexivity).
  rewrite E. split; [exists cs; auto|]. split; [exact H4|]. intros Hl. now apply file_dag_recorded.
Qed.

Lemma facts_stored dbp spl w w' root : import_facts dbp spl w w' root -> forall m, reach root m -> stored w' m = true.
Proof.
  intros (chunks & cs & added & _ & _ & _ & _ & H5 & H6 & _) m Hm. apply stored_added. rewrite H5, map_app. apply in_or_app. right. exact (all_in_reach _ _ _ H6 Hm).
Qed.

Lemma facts_refs dbp spl w w' root : import_facts dbp spl w w' root -> pr_nocopy dbp = true -> pr_raw dbp = true ->
  exists chunks added, spl = map EvData chunks /\ w_added w' = w_added w ++ added /\ filestore_refs added = positions 0 chunks.
Proof.
  intros (chunks & cs & added & H1 & _ & _ & _ & H5 & _ & H7 & _) E1 E2. exists chunks, added. rewrite E1, E2 in H7. auto.
Qed.

Lemma positions_locate cs : forall o b p, In (b, p) (positions o cs) ->
  exists pre post, concat cs = pre ++ b ++ post /\ p = mod64 (o + zlen pre).
Proof.
  induction cs as [|c cs IH]; intros o b p H; [destruct H|]. cbn [positions] in H. destruct H as [H|H].
  - injection H as <- <-. exists [], (concat cs). split; [reflexivity|]. rewrite zlen_nil, Z.add_0_r. reflexivity.
  - destruct (IH _ _ _ H) as (pre & post & E & ->). exists (c ++ pre), post. cbn [concat]. rewrite E, <- app_assoc.
    split; [reflexivity|]. f_equal. rewrite zlen_app. lia.
Qed.

(** Outcome without faults *)

Lemma balanced_total fuel dbp fi spl w : 2 <= pr_maxlinks dbp -> (length spl <= fuel)%nat ->
  (exists root, fst (balanced_import fuel dbp fi spl w) = Ok root) \/ exists e, fst (balanced_import fuel dbp fi spl w) = Err e.
Proof.
  intros Hk Hf. destruct (balanced_import fuel dbp fi spl w) as [r w'] eqn:H.
  apply build_inv in H as [(e & _ & -> & _)|(d & d' & _ & HL & -> & Hp & Hw & Hc & Ho)]; [right; cbn; eauto|].
  pose proof (BalancedProofs.Layout_spec _ fuel d Hc) as L. rewrite Ho, HL in L.
  specialize (L ltac:(split; [lia|reflexivity])). cbn [fst snd] in *. destruct r; eauto; [destruct L|]. rewrite Hp in L. lia.
Qed.

Lemma trickle_total fuel dbp fi spl w : 1 <= pr_maxlinks dbp -> (length spl < fuel)%nat ->
  (exists root, fst (trickle_import fuel dbp fi spl w) = Ok root) \/ exists e, fst (trickle_import fuel dbp fi spl w) = Err e.
Proof.
  intros Hk Hf. destruct (trickle_import fuel dbp fi spl w) as [r w'] eqn:H.
  apply build_inv in H as [(e & _ & -> & _)|(d & d' & _ & HL & -> & Hp & Hw & Hc & Ho)]; [right; cbn; eauto|].
  pose proof (TrickleProofs.Layout_spec (pr_raw dbp, pr_maxlinks dbp, pr_builder dbp, pr_nocopy dbp) fuel d Hk Hc) as L. rewrite Ho, HL in L.
  specialize (L ltac:(split; [lia|reflexivity]) ltac:(rewrite Hp; exact Hf)). destruct r; cbn; eauto; destruct L.
Qed.

Lemma source_faultless chunks d w : pend d = map EvData chunks -> db_w d = w -> source_ok BlockSizeLimit chunks ->
  (forall i, w_addok w i = true) -> faultless d.
Proof.
  intros Hp Hw Hs Ha. split; [|rewrite Hw; exact Ha]. rewrite Hp. unfold source_ok in Hs.
  apply Forall_forall. intros e He. apply in_map_iff in He as (b & <- & Hb). rewrite Forall_forall in Hs. now apply Hs.
Qed.

Lemma balanced_succeeds fuel dbp fi chunks w : 2 <= pr_maxlinks dbp -> (length chunks <= fuel)%nat ->
  source_ok BlockSizeLimit chunks -> (forall i, w_addok w i = true) -> (pr_nocopy dbp = true -> fi = true) ->
  exists root w', balanced_import fuel dbp fi (map EvData chunks) w = (Ok root, w').
Proof.
  intros Hk Hf Hs Ha Hfi. destruct (balanced_import fuel dbp fi (map EvData chunks) w) as [r w'] eqn:H.
  apply build_inv in H as [(e & HN & -> & _)|(d & d' & _ & HL & -> & Hp & Hw & Hc & Ho)].
  - unfold New in HN. destruct (pr_nocopy dbp); [rewrite Hfi in HN by reflexivity|]; discriminate.
  - pose proof (BalancedProofs.Layout_spec _ fuel d Hc) as L. rewrite Ho, HL in L.
    specialize (L ltac:(split; [lia|reflexivity])). cbn [fst snd] in *. destruct r; eauto.
    + destruct L as [L _]. destruct L. eapply source_faultless; eassumption.
    + destruct L.
    + rewrite Hp, map_length in L. lia.
Qed.

Lemma trickle_succeeds fuel dbp fi chunks w : 1 <= pr_maxlinks dbp -> (length chunks < fuel)%nat ->
  source_ok BlockSizeLimit chunks -> (forall i, w_addok w i = true) -> (pr_nocopy dbp = true -> fi = true) ->
  exists root w', trickle_import fuel dbp fi (map EvData chunks) w = (Ok root, w').
Proof.
  intros Hk Hf Hs Ha Hfi. destruct (trickle_import fuel dbp fi (map EvData chunks) w) as [r w'] eqn:H.
  apply build_inv in H as [(e & HN & -> & _)|(d & d' & _ & HL & -> & Hp & Hw & Hc & Ho)].
  - unfold New in HN. destruct (pr_nocopy dbp); [rewrite Hfi in HN by reflexivity|]; discriminate.
  - pose proof (TrickleProofs.Layout_spec (pr_raw dbp, pr_maxlinks dbp, pr_builder dbp, pr_nocopy dbp) fuel d Hk Hc) as L. rewrite Ho, HL in L.
    specialize (L ltac:(split; [lia|reflexivity]) ltac:(rewrite Hp, map_length; exact Hf)). destruct r; eauto; try destruct L.
    destruct H. eapply source_faultless; eassumption.
Qed.

(** Divergence *)

Lemma balanced_diverges fuel dbp fi chunks w : pr_maxlinks dbp <= 1 -> (2 <= length chunks)%nat ->
  source_ok BlockSizeLimit chunks -> (forall i, w_addok w i = true) -> (pr_nocopy dbp = true -> fi = true) ->
  fst (balanced_import fuel dbp fi (map EvData chunks) w) = Fuel.
Proof.
  intros Hk Hf Hs Ha Hfi. destruct (balanced_import fuel dbp fi (map EvData chunks) w) as [r w'] eqn:H. cbn.
  pose proof H as H0.
  apply build_inv in H as [(e & HN & -> & _)|(d & d' & _ & HL & -> & Hp & Hw & Hc & Ho)].
  - unfold New in HN. destruct (pr_nocopy dbp); [rewrite Hfi in HN by reflexivity|]; discriminate.
  - pose proof (BalancedProofs.Layout_spec _ fuel d Hc) as L. rewrite Ho, HL in L.
    specialize (L ltac:(split; [lia|reflexivity])). cbn [fst snd] in *. destruct r as [root|e| |]; auto; [| |destruct L].
    + exfalso. destruct (balanced_facts _ _ _ _ _ _ _ H0) as ((ch & cs & ad & F1 & F2 & F3 & _) & _ & dp & cs' & F4 & F5 & F6).
      assert (ch = chunks) as -> by (clear -F1; revert ch F1; induction chunks as [|x l IH]; intros [|y m] E; try discriminate; [reflexivity|];
        cbn in E; injection E as -> E; f_equal; auto).
      destruct dp as [|dp]; [|destruct (F6 ltac:(lia)); lia]. cbn in F4.
      pose proof (file_dag_leaf _ _ F2 F4) as X. destruct F3 as [[-> ->]| ->]; cbn in *; lia.
    + destruct L as [L _]. destruct L. eapply source_faultless; eassumption.
Qed.

Lemma trickle_diverges fuel dbp fi chunks w : pr_maxlinks dbp <= 0 -> chunks <> [] ->
  source_ok BlockSizeLimit chunks -> (forall i, w_addok w i = true) -> (pr_nocopy dbp = true -> fi = true) ->
  fst (trickle_import fuel dbp fi (map EvData chunks) w) = Fuel.
Proof.
  intros Hk Hf Hs Ha Hfi. destruct (trickle_import fuel dbp fi (map EvData chunks) w) as [r w'] eqn:H. cbn.
  apply build_inv in H as [(e & HN & -> & _)|(d & d' & _ & HL & -> & Hp & Hw & Hc & Ho)].
  - unfold New in HN. destruct (pr_nocopy dbp); [rewrite Hfi in HN by reflexivity|]; discriminate.
  - pose proof (Layout_stuck fuel d) as L. rewrite HL in L. apply L.
    + unfold cfg in Hc. assert (E : db_maxlinks d = pr_maxlinks dbp) by congruence. lia.
    + rewrite Hp. destruct chunks; [congruence|discriminate].
    + eapply source_faultless; eassumption.
Qed.

(** Shape *)

Lemma balanced_shape fuel dbp fi spl w root w' : balanced_import fuel dbp fi spl w = (Ok root, w') ->
  exists dp cs, file_dag root cs /\ balanced (pr_maxlinks dbp) dp root /\ left_full (pr_maxlinks dbp) dp root /\
    zlen cs <= pr_maxlinks dbp ^ Z.of_nat dp /\ (dp <> 0%nat -> pr_maxlinks dbp ^ (Z.of_nat dp - 1) < zlen cs).
Proof.
  intros H. destruct (balanced_facts _ _ _ _ _ _ _ H) as (_ & _ & dp & cs & F4 & F5 & F6). exists dp, cs.
  split; [assumption|]. destruct dp as [|dp].
  - split; [exact F4|]. split; [exact F4|]. split; [|congruence]. unfold zlen. rewrite (file_dag_leaf _ _ F5 F4). cbn. lia.
  - destruct (F6 ltac:(lia)) as [Hk Hm]. split; [apply left_full_balanced; [lia|assumption]|]. split; [assumption|].
    split; [apply left_full_count with root; auto; lia|]. intros _. exact Hm.
Qed.

(** The prefix asked for in the verification fits the one used in the import. *)
Definition verifiable_prefix (raw : bool) (bu e : option prefix) : Prop :=
  e = None \/ (bu = None /\ e = Some v0prefix) \/
  exists q, bu = Some q /\ e = Some q /\ (p_version q = 0 \/ p_version q = 1) /\ (raw = true -> p_codec q = RawCodec -> p_version q = 1).

Lemma expected_inner raw bu e : verifiable_prefix raw bu e -> prefix_expected e DagProtobuf (proto_prefix bu).
Proof.
  intros [->|[(-> & ->)|(q & -> & -> & Hv & Hr)]]; cbn; auto.
  - repeat split; lia.
  - unfold with_codec. destruct (p_codec q =? DagProtobuf) eqn:E; cbn.
    + repeat split; try lia. intros Hm. destruct (p_mhlen q =? -1) eqn:Em; [lia|reflexivity].
    + repeat split. intros Hm. destruct (p_mhlen q =? -1) eqn:Em; [lia|reflexivity].
Qed.

Lemma expected_leaf raw bu e n : verifiable_prefix raw bu e -> leaf_of raw bu TRaw n ->
  trickle_leaf raw (prefix_expected e (if raw then RawCodec else DagProtobuf)) n.
Proof.
  intros He Hn. unfold leaf_of in Hn. unfold trickle_leaf. destruct raw.
  - destruct Hn as (b & ->). eexists _, b. split; [reflexivity|]. destruct He as [->|[(-> & ->)|(q & -> & -> & Hv & Hr)]]; cbn; auto.
    + repeat split; try lia.
    + unfold with_codec. destruct (p_codec q =? RawCodec) eqn:E; cbn.
      * assert (p_codec q = RawCodec) as E' by lia. rewrite (Hr eq_refl E'). repeat split; try assumption. intros Hm. destruct (p_mhlen q =? -1) eqn:Em; [lia|reflexivity].
      * repeat split.
        -- intros Hm. destruct (p_mhlen q =? -1) eqn:Em; [lia|reflexivity].
        -- destruct Hv as [-> | ->]; reflexivity.
  - destruct Hn as (b & -> & f & Hd & Ht). eexists _, b, f. split; [reflexivity|]. split; [|auto]. eapply expected_inner, He.
Qed.

Lemma trickle_is_file fuel dbp fi spl w root w' e : 1 <= pr_maxlinks dbp -> (length spl < fuel)%nat ->
  trickle_import fuel dbp fi spl w = (Ok root, w') -> verifiable_prefix (pr_raw dbp) (pr_builder dbp) e ->
  trickle_file (pr_maxlinks dbp) 4 (pr_raw dbp) e (-1) root.
Proof.
  intros Hk Hf H He. destruct (trickle_facts _ _ _ _ _ _ _ Hk Hf H) as (F1 & F2 & F3 & F4 & F5 & F6).
  unfold trickle_file. eapply trickle_mono; [| |exact F5].
  - intros n Hn. now apply (expected_leaf _ (pr_builder dbp)).
  - intros n (b & ls & f & -> & Hd & Ht & Hda). cbn [fst snd]. eexists _, b, ls, f. split; [reflexivity|]. split; [|auto].
    eapply expected_inner, He.
Qed.

Lemma trickle_verifies fuel dbp fi spl w root w' e : 1 <= pr_maxlinks dbp -> (length spl < fuel)%nat ->
  trickle_import fuel dbp fi spl w = (Ok root, w') -> (forall m, w_getok w m = true) ->
  verifiable_prefix (pr_raw dbp) (pr_builder dbp) e ->
  VerifyTrickleDagStructure w' root (mkVparams (pr_maxlinks dbp) 4 e (pr_raw dbp)) = Ok tt.
Proof.
  intros Hk Hf H Hg He. destruct (trickle_facts _ _ _ _ _ _ _ Hk Hf H) as (F1 & F2 & F3 & F4 & F5 & F6).
  unfold VerifyTrickleDagStructure. apply verify_iff; [cbn; lia|now left|]. cbn [v_direct v_repeat v_raw v_prefix]. split.
  - eapply trickle_is_file; eassumption.
  - intros l m Hl Hm. unfold dserv_get. rewrite (facts_stored _ _ _ _ _ F1) by (econstructor; eassumption).
    rewrite F4, Hg. reflexivity.
Qed.

(** Statements in the form used in the property file *)

Lemma balanced_content fuel dbp fi spl w root w' :
  balanced_import fuel dbp fi spl w = (Ok root, w') ->
  exists chunks, spl = map EvData chunks /\ file_content root (concat chunks) /\
    source_ok BlockSizeLimit chunks /\
    (zlen (concat chunks) < 18446744073709551616 -> recorded_size root (zlen (concat chunks))).
Proof. intros H. eapply facts_content. apply (balanced_facts _ _ _ _ _ _ _ H). Qed.
Lemma trickle_content fuel dbp fi spl w root w' :
  1 <= pr_maxlinks dbp -> (length spl < fuel)%nat ->
  trickle_import fuel dbp fi spl w = (Ok root, w') ->
  exists chunks, spl = map EvData chunks /\ file_content root (concat chunks) /\
    source_ok BlockSizeLimit chunks /\
    (zlen (concat chunks) < 18446744073709551616 -> recorded_size root (zlen (concat chunks))).
Proof. intros Hk Hf H. eapply facts_content. apply (trickle_facts _ _ _ _ _ _ _ Hk Hf H). Qed.

Lemma no_err chunks e : ~ In (EvErr e) (map EvData chunks).
Proof. intros H. apply in_map_iff in H as (x & H & _). discriminate. Qed.
Lemma no_big chunks b : source_ok BlockSizeLimit chunks -> In (EvData b) (map EvData chunks) -> zlen b <= BlockSizeLimit.
Proof. intros H Hb. apply in_map_iff in Hb as (x & E & Hx). injection E as ->. unfold source_ok in H. rewrite Forall_forall in H. auto. Qed.

Lemma balanced_source_error fuel dbp fi spl w e :
  In (EvErr e) spl -> forall root, fst (balanced_import fuel dbp fi spl w) <> Ok root.
Proof.
  intros He root H. destruct (balanced_import fuel dbp fi spl w) as [r w'] eqn:E. cbn in H. subst r.
  destruct (balanced_content _ _ _ _ _ _ _ E) as (c & -> & _). exact (no_err _ _ He).
Qed.
Lemma trickle_source_error fuel dbp fi spl w e :
  1 <= pr_maxlinks dbp -> (length spl < fuel)%nat ->
  In (EvErr e) spl -> forall root, fst (trickle_import fuel dbp fi spl w) <> Ok root.
Proof.
  intros Hk Hf He root H. destruct (trickle_import fuel dbp fi spl w) as [r w'] eqn:E. cbn in H. subst r.
  destruct (trickle_content _ _ _ _ _ _ _ Hk Hf E) as (c & -> & _). exact (no_err _ _ He).
Qed.
Lemma balanced_oversize fuel dbp fi spl w b :
  In (EvData b) spl -> BlockSizeLimit < zlen b -> forall root, fst (balanced_import fuel dbp fi spl w) <> Ok root.
Proof.
  intros He Hb root H. destruct (balanced_import fuel dbp fi spl w) as [r w'] eqn:E. cbn in H. subst r.
  destruct (balanced_content _ _ _ _ _ _ _ E) as (c & -> & _ & Hs & _). pose proof (no_big _ _ Hs He). lia.
Qed.
Lemma trickle_oversize fuel dbp fi spl w b :
  1 <= pr_maxlinks dbp -> (length spl < fuel)%nat ->
  In (EvData b) spl -> BlockSizeLimit < zlen b -> forall root, fst (trickle_import fuel dbp fi spl w) <> Ok root.
Proof.
  intros Hk Hf He Hb root H. destruct (trickle_import fuel dbp fi spl w) as [r w'] eqn:E. cbn in H. subst r.
  destruct (trickle_content _ _ _ _ _ _ _ Hk Hf E) as (c & -> & _ & Hs & _). pose proof (no_big _ _ Hs He). lia.
Qed.

Lemma balanced_stored fuel dbp fi spl w root w' :
  balanced_import fuel dbp fi spl w = (Ok root, w') -> forall m, reach root m -> stored w' m = true.
Proof. intros H. eapply facts_stored. apply (balanced_facts _ _ _ _ _ _ _ H). Qed.
Lemma trickle_stored fuel dbp fi spl w root w' :
  1 <= pr_maxlinks dbp -> (length spl < fuel)%nat ->
  trickle_import fuel dbp fi spl w = (Ok root, w') -> forall m, reach root m -> stored w' m = true.
Proof. intros Hk Hf H. eapply facts_stored. apply (trickle_facts _ _ _ _ _ _ _ Hk Hf H). Qed.

Lemma balanced_positions fuel dbp fi spl w root w' :
  balanced_import fuel dbp fi spl w = (Ok root, w') -> pr_nocopy dbp = true -> pr_raw dbp = true ->
  exists chunks added, spl = map EvData chunks /\ w_added w' = w_added w ++ added /\
    filestore_refs added = positions 0 chunks.
Proof. intros H. eapply facts_refs. apply (balanced_facts _ _ _ _ _ _ _ H). Qed.
Lemma trickle_positions fuel dbp fi spl w root w' :
  1 <= pr_maxlinks dbp -> (length spl < fuel)%nat ->
  trickle_import fuel dbp fi spl w = (Ok root, w') -> pr_nocopy dbp = true -> pr_raw dbp = true ->
  exists chunks added, spl = map EvData chunks /\ w_added w' = w_added w ++ added /\
    filestore_refs added = positions 0 chunks.
Proof. intros Hk Hf H. eapply facts_refs. apply (trickle_facts _ _ _ _ _ _ _ Hk Hf H). Qed.
Lemma positions_locate_0 chunks b o : In (b, o) (positions 0 chunks) ->
  exists pre post, concat chunks = pre ++ b ++ post /\ o = mod64 (zlen pre).
Proof. intros H. apply positions_locate in H as (pre & post & E & ->). exists pre, post. auto. Qed.

Lemma balanced_tsize fuel dbp fi spl w root w' :
  balanced_import fuel dbp fi spl w = (Ok root, w') -> tsizes_exact root.
Proof. intros H. destruct (balanced_facts _ _ _ _ _ _ _ H) as ((c & cs & a & F) & _). apply F. Qed.
Lemma trickle_tsize fuel dbp fi spl w root w' :
  1 <= pr_maxlinks dbp -> (length spl < fuel)%nat ->
  trickle_import fuel dbp fi spl w = (Ok root, w') -> tsizes_exact root.
Proof. intros Hk Hf H. destruct (trickle_facts _ _ _ _ _ _ _ Hk Hf H) as ((c & cs & a & F) & _). apply F. Qed.

Lemma verify_exact w root k r raw e : 0 < r ->
  (VerifyTrickleDagStructure w root (mkVparams k r e raw) = Ok tt <->
   trickle_file k r raw e (-1) root /\ below_available w root).
Proof. intros Hr. exact (verify_iff w (mkVparams k r e raw) Hr root (-1) (or_introl eq_refl)). Qed.

Lemma balanced_formats fuel dbp fi spl w root w' :
  balanced_import fuel dbp fi spl w = (Ok root, w') ->
  uniform (pr_raw dbp) (if pr_raw dbp then raw_prefix (pr_builder dbp) else proto_prefix (pr_builder dbp))
    (proto_prefix (pr_builder dbp)) root.
Proof. intros H. apply (balanced_facts _ _ _ _ _ _ _ H). Qed.
Lemma trickle_formats fuel dbp fi spl w root w' :
  1 <= pr_maxlinks dbp -> (length spl < fuel)%nat -> spl <> [] ->
  trickle_import fuel dbp fi spl w = (Ok root, w') ->
  uniform (pr_raw dbp) (if pr_raw dbp then raw_prefix (pr_builder dbp) else proto_prefix (pr_builder dbp))
    (proto_prefix (pr_builder dbp)) root.
Proof. intros Hk Hf Hne H. now apply (trickle_facts _ _ _ _ _ _ _ Hk Hf H). Qed.
Lemma trickle_dense fuel dbp fi spl w root w' :
  1 <= pr_maxlinks dbp -> (length spl < fuel)%nat ->
  trickle_import fuel dbp fi spl w = (Ok root, w') -> left_complete (pr_maxlinks dbp) 4 root.
Proof. intros Hk Hf H. apply (trickle_facts _ _ _ _ _ _ _ Hk Hf H). Qed.

Lemma balanced_total_ dbp fi spl w fuel :
  2 <= pr_maxlinks dbp -> (length spl <= fuel)%nat ->
  (exists root, fst (balanced_import fuel dbp fi spl w) = Ok root) \/
  (exists e, fst (balanced_import fuel dbp fi spl w) = Err e).
Proof. apply balanced_total. Qed.
Lemma trickle_total_ dbp fi spl w fuel :
  1 <= pr_maxlinks dbp -> (length spl < fuel)%nat ->
  (exists root, fst (trickle_import fuel dbp fi spl w) = Ok root) \/
  (exists e, fst (trickle_import fuel dbp fi spl w) = Err e).
Proof. apply trickle_total. Qed.
Lemma balanced_succeeds_ dbp fi chunks w fuel :
  2 <= pr_maxlinks dbp -> (length chunks <= fuel)%nat ->
  source_ok BlockSizeLimit chunks -> (forall i, w_addok w i = true) -> (pr_nocopy dbp = true -> fi = true) ->
  exists root w', balanced_import fuel dbp fi (map EvData chunks) w = (Ok root, w').
Proof. apply balanced_succeeds. Qed.
Lemma trickle_succeeds_ dbp fi chunks w fuel :
  1 <= pr_maxlinks dbp -> (length chunks < fuel)%nat ->
  source_ok BlockSizeLimit chunks -> (forall i, w_addok w i = true) -> (pr_nocopy dbp = true -> fi = true) ->
  exists root w', trickle_import fuel dbp fi (map EvData chunks) w = (Ok root, w').
Proof. apply trickle_succeeds. Qed.
Lemma balanced_diverges_ dbp fi chunks w fuel :
  pr_maxlinks dbp <= 1 -> (2 <= length chunks)%nat ->
  source_ok BlockSizeLimit chunks -> (forall i, w_addok w i = true) -> (pr_nocopy dbp = true -> fi = true) ->
  fst (balanced_import fuel dbp fi (map EvData chunks) w) = Fuel.
Proof. apply balanced_diverges. Qed.
Lemma trickle_diverges_ dbp fi chunks w fuel :
  pr_maxlinks dbp <= 0 -> chunks <> [] ->
  source_ok BlockSizeLimit chunks -> (forall i, w_addok w i = true) -> (pr_nocopy dbp = true -> fi = true) ->
  fst (trickle_import fuel dbp fi (map EvData chunks) w) = Fuel.
Proof. apply trickle_diverges. Qed.

Lemma balanced_terminates_refuted : exists dbp fi spl w,
  forall fuel, fst (balanced_import fuel dbp fi spl w) = Fuel.
Proof.
  exists (mkParams 1 false None false), false, (map EvData [[x61]; [x62]]),
    (mkWorld (fun _ => false) [] 0 (fun _ => true) (fun _ => true)).
  intros fuel. apply balanced_diverges; cbn; try lia; try reflexivity; try discriminate.
  repeat (constructor; [discriminate|]). constructor.
Qed.
Lemma trickle_terminates_refuted : exists dbp fi spl w,
  forall fuel, fst (trickle_import fuel dbp fi spl w) = Fuel.
Proof.
  exists (mkParams 0 false None false), false, (map EvData [[x61]]),
    (mkWorld (fun _ => false) [] 0 (fun _ => true) (fun _ => true)).
  intros fuel. apply trickle_diverges; cbn; try lia; try reflexivity; try discriminate.
  repeat (constructor; [discriminate|]). constructor.
Qed.

Lemma verifiable_case : verifiable_prefix true (Some (mkPrefix 1 112 18 (-1))) (Some (mkPrefix 1 112 18 (-1))) /\
  verifiable_prefix false None (Some v0prefix).
Proof.
  split.
  - right. right. eexists. split; [reflexivity|]. split; [reflexivity|]. cbn. split; [auto|discriminate].
  - right. left. auto.
Qed.

Lemma default_limit : pr_maxlinks default_params = 174 /\ 2 <= pr_maxlinks default_params.
Proof. split; [reflexivity|]. vm_compute. discriminate. Qed.
