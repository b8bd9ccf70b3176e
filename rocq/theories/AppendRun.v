(** The append theorems in terms of chunk sources and stores. *)
From Verif Require Import Base Pb PbProofs FSNode FSNodeProofs Dag DagProofs Builder Balanced Trickle Importer
  SpecFile SpecStore SpecAppend SpecReader BuilderProofs BalancedProofs TrickleProofs ImportProofs AppendProofs.

Lemma append_inv fuel rfuel dbp fi spl base w r base' w' : trickle_append fuel rfuel dbp fi spl base w = (r, base', w') ->
  (exists e, New dbp fi spl w = Err e /\ r = Err e /\ w' = w) \/
  exists d d', New dbp fi spl w = Ok d /\ Append fuel rfuel base d = (r, base', d') /\ w' = db_w d' /\ pend d = spl /\ db_w d = w /\
    cfg d = (pr_raw dbp, pr_maxlinks dbp, pr_builder dbp, pr_nocopy dbp) /\ db_offset d = 0.
Proof.
  unfold trickle_append, New. destruct (pr_nocopy dbp && negb fi) eqn:E.
  - intros H. injection H as <- <- <-. left. eauto.
  - intros H. right. destruct (Append _ _ _ _) as [[r0 b0] d'] eqn:El. injection H as <- <- <-. eexists _, d'.
    split; [reflexivity|]. split; [exact El|]. split; [reflexivity|]. split; [reflexivity|]. split; [reflexivity|]. split; [|reflexivity].
    unfold cfg. cbn. do 2 f_equal. destruct (pr_nocopy dbp), fi; try reflexivity. discriminate.
Qed.

(** What is known of a successful append. *)
Definition append_facts (dbp : params) (spl : list event) (w w' : world) (base root : node) (cs : list bytes) : Prop :=
  exists chunks added rcs, spl = map EvData chunks /\ file_dag root rcs /\ concat rcs = concat cs ++ concat chunks /\
    Forall (fun c => zlen c <= BlockSizeLimit) chunks /\
    w_added w' = w_added w ++ added /\ w_has w' = w_has w /\ w_getok w' = w_getok w /\
    blocks_from base root added /\ (tsizes_exact base -> tsizes_exact root) /\
    filestore_refs added = (if pr_nocopy dbp && pr_raw dbp then positions 0 chunks else []) /\
    node_prefix root = node_prefix base /\
    forall (leaf : node -> Prop) (pi : prefix -> Prop), (forall x, leaf_of (pr_raw dbp) (pr_builder dbp) TRaw x -> leaf x) -> pi (proto_prefix (pr_builder dbp)) ->
      loose (pr_maxlinks dbp) 4 leaf (trickle_inner pi) (-1) base -> loose (pr_maxlinks dbp) 4 leaf (trickle_inner pi) (-1) root.

(** The blocks on the right edge of the file can be fetched. *)
Definition edge_available (k : Z) (w : world) (base : node) : Prop := forall m, edge k (node_links base) m -> dserv_get w m = Ok m.
(** What a successful append has added. *)
Definition append_blocks (k : Z) (w w' : world) (base root : node) : Prop :=
  exists added, w_added w' = w_added w ++ added /\ children_first (below base) added /\ grew k (node_links base) (node_links root) (map fst added).

Lemma append_result fuel rfuel dbp fi spl base w r base' w' cs :
  1 <= pr_maxlinks dbp -> (length spl < fuel)%nat -> (height base <= rfuel)%nat ->
  file_dag base cs -> appendable (pr_maxlinks dbp) base ->
  trickle_append fuel rfuel dbp fi spl base w = (r, base', w') ->
  match r with
  | Ok root => (base' = root /\ append_facts dbp spl w w' base root cs) /\ append_blocks (pr_maxlinks dbp) w w' base root
  | Err _ => ~ ((exists chunks, spl = map EvData chunks /\ source_ok BlockSizeLimit chunks) /\ (pr_nocopy dbp = true -> fi = true) /\
      can_add w /\ edge_available (pr_maxlinks dbp) w base) /\ wupf (below base) w w'
  | _ => False
  end.
Proof.
  intros Hk Hf Hh Hfd Ha H.
  apply append_inv in H as [(e & HN & -> & ->)|(d & d' & _ & HL & -> & Hp & Hw & Hc & Ho)].
  { split; [|apply wupf_refl]. intros (_ & Hfi & _). unfold New in HN. destruct (pr_nocopy dbp); [rewrite Hfi in HN by reflexivity|]; discriminate. }
  set (c := (pr_raw dbp, pr_maxlinks dbp, pr_builder dbp, pr_nocopy dbp)) in *.
  assert (G : forall (leaf : node -> Prop) (pi : prefix -> Prop), (forall x, leaf_of (pr_raw dbp) (pr_builder dbp) TRaw x -> leaf x) -> pi (proto_prefix (pr_builder dbp)) ->
    match (r, base', d') with
    | (Ok root, base', d') => base' = root /\ appended c leaf pi base d root d' cs
    | (Err _, _, d') => ~ (faultless d /\ edge_available (pr_maxlinks dbp) w base) /\ wupf (below base) (db_w d) (db_w d')
    | (Panic, _, _) => False
    | (Fuel, _, _) => False
    end).
  { intros leaf pi Hl Hpi. pose proof (Append_spec c Hk fuel (edge_available (pr_maxlinks dbp) w base) leaf pi Hl Hpi rfuel base d cs) as S. rewrite HL in S.
    apply S; auto; [rewrite Hp; exact Hf|rewrite Ho; split; [lia|reflexivity]|rewrite Hw; auto]. }
  destruct r as [root|e| |].
  - pose proof (G (leaf_of (pr_raw dbp) (pr_builder dbp) TRaw) (eq (proto_prefix (pr_builder dbp))) (fun _ h => h) eq_refl) as [-> A].
    destruct A as (chunks & added & rcs & A1 & A2 & A3 & A4 & A5 & A6 & A7 & A8 & A9 & A10 & A11 & A12 & _ & A13 & A14 & _).
    split; [split; [reflexivity|]|rewrite Hw in *; exists added; auto].
    exists chunks, added, rcs. rewrite Hw in *. split; [congruence|]. do 8 (split; [assumption|]).
    assert (E1 : db_fs d = pr_nocopy dbp /\ db_raw d = pr_raw dbp) by (unfold cfg, c in Hc; split; congruence).
    split; [change (filestore_refs added) with (fs_entries added); rewrite A11; unfold entries; rewrite (proj1 E1), (proj2 E1), Ho; reflexivity|].
    split; [assumption|]. intros leaf pi Hl Hpi. destruct (G leaf pi Hl Hpi) as [_ B].
    destruct B as (? & ? & ? & _ & _ & _ & _ & _ & _ & _ & _ & _ & _ & _ & _ & B & _). exact B.
  - pose proof (G (leaf_of (pr_raw dbp) (pr_builder dbp) TRaw) (eq (proto_prefix (pr_builder dbp))) (fun _ h => h) eq_refl) as [A B].
    split; [|rewrite Hw in B; exact B].
    intros ((chunks & -> & Hs) & _ & Hca & Hbe). apply A. split; [|exact Hbe]. eapply source_faultless; eauto.
  - exact (G (leaf_of (pr_raw dbp) (pr_builder dbp) TRaw) (eq (proto_prefix (pr_builder dbp))) (fun _ h => h) eq_refl).
  - exact (G (leaf_of (pr_raw dbp) (pr_builder dbp) TRaw) (eq (proto_prefix (pr_builder dbp))) (fun _ h => h) eq_refl).
Qed.

(** The pieces of the file afterwards. *)
Lemma append_solid fuel rfuel dbp fi chunks base w root base' w' cs :
  1 <= pr_maxlinks dbp -> (length chunks < fuel)%nat -> (height base <= rfuel)%nat ->
  file_dag base cs -> appendable (pr_maxlinks dbp) base ->
  trickle_append fuel rfuel dbp fi (map EvData chunks) base w = (Ok root, base', w') ->
  exists rcs, file_dag root rcs /\ solid rcs = solid cs ++ solid chunks.
Proof.
  intros Hk Hf Hh Hfd Ha H. apply append_inv in H as [(e & _ & X & _)|(d & d' & _ & HL & -> & Hp & Hw & Hc & Ho)]; [discriminate|].
  set (c := (pr_raw dbp, pr_maxlinks dbp, pr_builder dbp, pr_nocopy dbp)) in *.
  pose proof (Append_spec c Hk fuel False (leaf_of (pr_raw dbp) (pr_builder dbp) TRaw) (eq (proto_prefix (pr_builder dbp))) (fun _ h => h) eq_refl rfuel base d cs) as S. rewrite HL in S.
  destruct S as (_ & ch & added & rcs & E & _ & D & S); auto; [rewrite Hp, map_length; exact Hf|rewrite Ho; split; [lia|reflexivity]|contradiction|].
  rewrite Hp in E. assert (E' : chunks = ch) by (clear -E; revert ch E; induction chunks as [|x l IH]; intros [|y r] E; try discriminate; [reflexivity|]; injection E as -> E; f_equal; exact (IH _ E)). subst ch. exists rcs. split; [exact D|apply S].
Qed.

(** ** Statements in the form used in the property file *)

Lemma append_content fuel rfuel dbp fi spl base w root base' w' old :
  1 <= pr_maxlinks dbp -> (length spl < fuel)%nat -> (height base <= rfuel)%nat ->
  file_content base old -> appendable (pr_maxlinks dbp) base ->
  trickle_append fuel rfuel dbp fi spl base w = (Ok root, base', w') ->
  exists chunks, spl = map EvData chunks /\ source_ok BlockSizeLimit chunks /\ base' = root /\
    file_content root (old ++ concat chunks) /\
    (zlen (old ++ concat chunks) < 18446744073709551616 -> recorded_size root (zlen (old ++ concat chunks))) /\
    (tsizes_exact base -> tsizes_exact root) /\ node_prefix root = node_prefix base.
Proof.
  intros Hk Hf Hh (cs & Hfd & ->) Ha H.
  destruct (append_result _ _ _ _ _ _ _ _ _ _ _ Hk Hf Hh Hfd Ha H) as [[-> (chunks & added & rcs & A1 & A2 & A3 & A4 & A5 & A6 & A7 & A8 & A9 & A10 & A11 & _)] _].
  exists chunks. split; [assumption|]. split; [assumption|]. split; [reflexivity|]. rewrite <- A3. split; [exists rcs; auto|].
  split; [|auto]. intros Hl. now apply file_dag_recorded.
Qed.

Lemma append_total fuel rfuel dbp fi spl base w old :
  1 <= pr_maxlinks dbp -> (length spl < fuel)%nat -> (height base <= rfuel)%nat ->
  file_content base old -> appendable (pr_maxlinks dbp) base ->
  (exists root, fst (fst (trickle_append fuel rfuel dbp fi spl base w)) = Ok root) \/
  (exists e, fst (fst (trickle_append fuel rfuel dbp fi spl base w)) = Err e).
Proof.
  intros Hk Hf Hh (cs & Hfd & ->) Ha. destruct (trickle_append fuel rfuel dbp fi spl base w) as [[r b] w'] eqn:H.
  pose proof (append_result _ _ _ _ _ _ _ _ _ _ _ Hk Hf Hh Hfd Ha H) as R. cbn. destruct r; eauto; destruct R.
Qed.

Lemma edge_below k ls m : edge k ls m -> exists l, In l ls /\ reach (lto l) m.
Proof.
  induction 1 as [ls l H|ls l m H _ (l' & Hl & Hr)]; exists l; (split; [apply in_or_app; right; now left|]); [constructor|]. econstructor; eassumption.
Qed.

Lemma append_succeeds fuel rfuel dbp fi chunks base w old :
  1 <= pr_maxlinks dbp -> (length chunks < fuel)%nat -> (height base <= rfuel)%nat ->
  file_content base old -> appendable (pr_maxlinks dbp) base ->
  source_ok BlockSizeLimit chunks -> can_add w -> serves w -> below_available w base -> (pr_nocopy dbp = true -> fi = true) ->
  exists root w', trickle_append fuel rfuel dbp fi (map EvData chunks) base w = (Ok root, root, w').
Proof.
  intros Hk Hf Hh (cs & Hfd & ->) Ha Hs Hca Hse Hbe Hfi.
  destruct (trickle_append fuel rfuel dbp fi (map EvData chunks) base w) as [[r b] w'] eqn:H.
  pose proof (append_result fuel rfuel dbp fi _ base w r b w' cs Hk ltac:(rewrite map_length; exact Hf) Hh Hfd Ha H) as R.
  destruct r; [|exfalso; apply R|destruct R|destruct R]; [destruct R as [[-> _] _]; eauto|].
  split; [eauto|]. split; [exact Hfi|]. split; [exact Hca|]. intros m Hm. destruct (edge_below _ _ _ Hm) as (l & Hl & Hr). exact (Hbe l m Hl Hr).
Qed.

Lemma append_source_error fuel rfuel dbp fi spl base w old e :
  1 <= pr_maxlinks dbp -> (length spl < fuel)%nat -> (height base <= rfuel)%nat ->
  file_content base old -> appendable (pr_maxlinks dbp) base ->
  In (EvErr e) spl -> forall root, fst (fst (trickle_append fuel rfuel dbp fi spl base w)) <> Ok root.
Proof.
  intros Hk Hf Hh Hfd Ha Hi root Hr. destruct (trickle_append fuel rfuel dbp fi spl base w) as [[r b] w'] eqn:H. cbn in Hr. subst r.
  destruct (append_content _ _ _ _ _ _ _ _ _ _ _ Hk Hf Hh Hfd Ha H) as (chunks & -> & _). now apply no_err in Hi.
Qed.

Lemma append_oversize fuel rfuel dbp fi spl base w old x :
  1 <= pr_maxlinks dbp -> (length spl < fuel)%nat -> (height base <= rfuel)%nat ->
  file_content base old -> appendable (pr_maxlinks dbp) base ->
  In (EvData x) spl -> BlockSizeLimit < zlen x -> forall root, fst (fst (trickle_append fuel rfuel dbp fi spl base w)) <> Ok root.
Proof.
  intros Hk Hf Hh Hfd Ha Hi Hx root Hr. destruct (trickle_append fuel rfuel dbp fi spl base w) as [[r b] w'] eqn:H. cbn in Hr. subst r.
  destruct (append_content _ _ _ _ _ _ _ _ _ _ _ Hk Hf Hh Hfd Ha H) as (chunks & -> & Hs & _). apply no_big in Hi; [lia|exact Hs].
Qed.

Lemma append_stored fuel rfuel dbp fi spl base w root base' w' old :
  1 <= pr_maxlinks dbp -> (length spl < fuel)%nat -> (height base <= rfuel)%nat ->
  file_content base old -> appendable (pr_maxlinks dbp) base ->
  trickle_append fuel rfuel dbp fi spl base w = (Ok root, base', w') ->
  (forall m, stored w m = true -> stored w' m = true) /\
  forall l m, In l (node_links root) -> reach (lto l) m ->
    stored w' m = true \/ exists l0, In l0 (node_links base) /\ reach (lto l0) m.
Proof.
  intros Hk Hf Hh (cs & Hfd & ->) Ha H.
  destruct (append_result _ _ _ _ _ _ _ _ _ _ _ Hk Hf Hh Hfd Ha H) as [[-> (chunks & added & rcs & A1 & A2 & A3 & A4 & A5 & A6 & A7 & A8 & _)] _].
  split.
  - intros m. unfold stored. rewrite A5, A6, existsb_app. intros Hm. apply orb_true_iff in Hm as [-> | ->]; [reflexivity|]. now rewrite orb_true_r.
  - intros l m Hl Hm. destruct (A8 l m Hl Hm) as [Ho|Hn]; [now right|]. left. apply stored_added. rewrite A5, map_app. apply in_or_app. now right.
Qed.

Lemma append_positions fuel rfuel dbp fi spl base w root base' w' old :
  1 <= pr_maxlinks dbp -> (length spl < fuel)%nat -> (height base <= rfuel)%nat ->
  file_content base old -> appendable (pr_maxlinks dbp) base ->
  trickle_append fuel rfuel dbp fi spl base w = (Ok root, base', w') -> pr_nocopy dbp = true -> pr_raw dbp = true ->
  exists chunks added, spl = map EvData chunks /\ w_added w' = w_added w ++ added /\ filestore_refs added = positions 0 chunks.
Proof.
  intros Hk Hf Hh (cs & Hfd & ->) Ha H E1 E2.
  destruct (append_result _ _ _ _ _ _ _ _ _ _ _ Hk Hf Hh Hfd Ha H) as [[-> (chunks & added & rcs & A1 & A2 & A3 & A4 & A5 & A6 & A7 & A8 & A9 & A10 & _)] _].
  exists chunks, added. rewrite E1, E2 in A10. auto.
Qed.

(** ** Shape *)

Lemma append_loose fuel rfuel dbp fi spl base w root base' w' old e :
  1 <= pr_maxlinks dbp -> (length spl < fuel)%nat -> (height base <= rfuel)%nat ->
  file_content base old -> verifiable_prefix (pr_raw dbp) (pr_builder dbp) e ->
  loose_file (pr_maxlinks dbp) 4 (pr_raw dbp) e (-1) base ->
  trickle_append fuel rfuel dbp fi spl base w = (Ok root, base', w') ->
  loose_file (pr_maxlinks dbp) 4 (pr_raw dbp) e (-1) root.
Proof.
  intros Hk Hf Hh (cs & Hfd & ->) He Hl H.
  assert (Ha : appendable (pr_maxlinks dbp) base) by (eapply loose_appendable; eassumption).
  destruct (append_result _ _ _ _ _ _ _ _ _ _ _ Hk Hf Hh Hfd Ha H) as [[-> (chunks & added & rcs & A1 & A2 & A3 & A4 & A5 & A6 & A7 & A8 & A9 & A10 & A11 & A12)] _].
  unfold loose_file. apply A12.
  - intros x Hx. eapply expected_leaf; eassumption.
  - eapply expected_inner, He.
  - exact Hl.
Qed.

Lemma file_is_loose k raw e D n : trickle_file k 4 raw e D n -> loose_file k 4 raw e D n.
Proof. apply trickle_loose; auto; lia. Qed.

Lemma loose_file_appendable k raw e n : 1 <= k -> loose_file k 4 raw e (-1) n -> appendable k n.
Proof. intros Hk H. eapply loose_appendable; eassumption. Qed.

Lemma small_is_file k raw e D n : loose_file k 4 raw e D n -> zlen (node_links n) <= k -> trickle_file k 4 raw e D n.
Proof.
  intros H Hs. inversion H as [? ? H1 H2 H3 H4]; subst. constructor; auto.
  intros i l Hn Hi. exfalso. assert (i < length (node_links n))%nat by (apply nth_error_Some; congruence). unfold zlen in Hs. lia.
Qed.

Lemma append_small fuel rfuel dbp fi spl base w root base' w' old e :
  1 <= pr_maxlinks dbp -> (length spl < fuel)%nat -> (height base <= rfuel)%nat ->
  file_content base old -> verifiable_prefix (pr_raw dbp) (pr_builder dbp) e ->
  loose_file (pr_maxlinks dbp) 4 (pr_raw dbp) e (-1) base ->
  trickle_append fuel rfuel dbp fi spl base w = (Ok root, base', w') ->
  zlen (node_links root) <= pr_maxlinks dbp ->
  trickle_file (pr_maxlinks dbp) 4 (pr_raw dbp) e (-1) root.
Proof. intros. eapply small_is_file; [eapply append_loose; eassumption|assumption]. Qed.

Lemma balanced_appendable fuel dbp fi spl w root w' :
  balanced_import fuel dbp fi spl w = (Ok root, w') -> node_links root <> [] -> appendable (pr_maxlinks dbp) root.
Proof.
  intros H Hne. destruct (balanced_shape _ _ _ _ _ _ _ H) as (dp & leaves & Hfd & Hb & _). destruct dp as [|dp]; [destruct (Hne Hb)|].
  destruct Hb as (_ & Hk & _). destruct root as [p b|p b ls]; [destruct (Hne eq_refl)|]. cbn [node_links] in *.
  destruct ls as [|l ls _] using rev_ind; [congruence|]. apply ap_links. intros Hlt. lia.
Qed.

(** ** Import and any number of appends *)

Lemma import_loose fuel dbp fi spl w root w' e : 1 <= pr_maxlinks dbp -> (length spl < fuel)%nat ->
  trickle_import fuel dbp fi spl w = (Ok root, w') -> verifiable_prefix (pr_raw dbp) (pr_builder dbp) e ->
  loose_file (pr_maxlinks dbp) 4 (pr_raw dbp) e (-1) root.
Proof. intros. eapply file_is_loose, trickle_is_file; eassumption. Qed.

Lemma import_append_stored fuel fuel' rfuel dbp fi fi' spl spl' w base w1 root base' w' :
  1 <= pr_maxlinks dbp -> (length spl < fuel)%nat -> (length spl' < fuel')%nat -> (height base <= rfuel)%nat ->
  trickle_import fuel dbp fi spl w = (Ok base, w1) ->
  trickle_append fuel' rfuel dbp fi' spl' base w1 = (Ok root, base', w') ->
  forall l m, In l (node_links root) -> reach (lto l) m -> stored w' m = true.
Proof.
  intros Hk L1 L2 L3 E A l m Hl Hm.
  pose proof (trickle_content _ _ _ _ _ _ _ Hk L1 E) as (ch & Ec & C & _).
  assert (V : verifiable_prefix (pr_raw dbp) (pr_builder dbp) None) by now left.
  destruct (append_stored _ _ _ _ _ _ _ _ _ _ _ Hk L2 L3 C
    (loose_file_appendable _ _ _ _ Hk (import_loose _ _ _ _ _ _ _ None Hk L1 E V)) A) as [S1 S2].
  destruct (S2 l m Hl Hm) as [S|(l0 & Hl0 & Hr)]; [exact S|]. apply S1.
  eapply trickle_stored; [exact Hk|exact L1|exact E|econstructor; eassumption].
Qed.

(** A file made by a trickle import and appends, with the chunks given. *)
Inductive history (dbp : params) : node -> list (list bytes) -> Prop :=
| h_import fuel fi chunks w root w' : (length chunks < fuel)%nat ->
    trickle_import fuel dbp fi (map EvData chunks) w = (Ok root, w') -> history dbp root [chunks]
| h_append fuel rfuel fi chunks base hist w root base' w' : history dbp base hist ->
    (length chunks < fuel)%nat -> (height base <= rfuel)%nat ->
    trickle_append fuel rfuel dbp fi (map EvData chunks) base w = (Ok root, base', w') -> history dbp root (hist ++ [chunks]).

Lemma map_EvData_inj a b : map EvData a = map EvData b -> a = b.
Proof. revert b. induction a as [|x a IH]; intros [|y b]; cbn; intros H; try discriminate; [reflexivity|]. injection H as -> H. f_equal. auto. Qed.

Lemma history_file dbp root hist : 1 <= pr_maxlinks dbp -> history dbp root hist ->
  file_content root (concat (concat hist)) /\ tsizes_exact root /\
  (zlen (concat (concat hist)) < 18446744073709551616 -> recorded_size root (zlen (concat (concat hist)))) /\
  forall e, verifiable_prefix (pr_raw dbp) (pr_builder dbp) e -> loose_file (pr_maxlinks dbp) 4 (pr_raw dbp) e (-1) root.
Proof.
  intros Hk H. induction H as [fuel fi chunks w root w' Hf H|fuel rfuel fi chunks base hist w root base' w' Hi (IH1 & IH2 & IH3 & IH4) Hf Hh H].
  - rewrite <- (map_length EvData) in Hf. destruct (trickle_content _ _ _ _ _ _ _ Hk Hf H) as (ch & E & C1 & C2 & C3). apply map_EvData_inj in E. subst ch.
    cbn [concat]. rewrite app_nil_r. split; [assumption|]. split; [eapply trickle_tsize; eassumption|]. split; [assumption|].
    intros e He. eapply import_loose; eassumption.
  - rewrite <- (map_length EvData) in Hf.
    assert (Ha : appendable (pr_maxlinks dbp) base) by (eapply loose_file_appendable; [exact Hk|apply (IH4 None); now left]).
    destruct (append_content _ _ _ _ _ _ _ _ _ _ _ Hk Hf Hh IH1 Ha H) as (ch & E & C1 & C2 & C3 & C4 & C5 & _). apply map_EvData_inj in E. subst ch.
    rewrite concat_app, concat_app. cbn [concat]. rewrite app_nil_r. split; [assumption|]. split; [auto|]. split; [assumption|].
    intros e He. eapply append_loose; [exact Hk|exact Hf|exact Hh|exact IH1|exact He|now apply IH4|exact H].
Qed.

(** ** Counterexamples *)

Definition astore : world := mkWorld (fun _ => false) [] 0 (fun _ => true) (fun _ => true).
Definition limit (k : Z) : params := mkParams k false None false.
Definition ok_node (r : res node) : node := match r with Ok n => n | _ => NRaw rawprefix [] end.

(** Computing the bytes of a tree. *)
Fixpoint tree_read (n : node) : option bytes :=
  match n with
  | NRaw _ d => Some d
  | NProto _ b [] =>
      match FSNodeFromBytes b with
      | Ok f => if (getType f =? TFile) || (getType f =? TRaw) then Some (getData f) else None
      | _ => None
      end
  | NProto _ _ ls =>
      fold_right (fun l r => match tree_read (lto l), r with Some x, Some y => Some (x ++ y) | _, _ => None end) (Some []) ls
  end.

Lemma tree_read_sound : forall n d, tree_read n = Some d -> tree_bytes n d.
Proof.
  induction n as [p d|p b ls IH] using node_ind'; intros c H.
  - cbn in H. injection H as <-. constructor. constructor.
  - destruct ls as [|l ls].
    + cbn [tree_read] in H. destruct (FSNodeFromBytes b) as [f| | |] eqn:E; try discriminate.
      destruct (_ || _) eqn:Et; [|discriminate]. injection H as <-. constructor. constructor; [exact E|].
      apply orb_true_iff in Et as [Et|Et]; [left|right]; lia.
    + assert (G : forall ms c, Forall (fun l => forall d, tree_read (lto l) = Some d -> tree_bytes (lto l) d) ms ->
        fold_right (fun l r => match tree_read (lto l), r with Some x, Some y => Some (x ++ y) | _, _ => None end) (Some []) ms = Some c ->
        exists bs, Forall2 tree_bytes (map lto ms) bs /\ c = concat bs).
      { induction ms as [|m ms IHm]; intros c' F E; cbn in E.
        - injection E as <-. exists []. split; [constructor|reflexivity].
        - inversion F as [|? ? F1 F2]; subst. destruct (tree_read (lto m)) as [x|] eqn:E1; [|discriminate].
          destruct (fold_right _ _ _) as [y|] eqn:E2; [|discriminate]. injection E as <-. destruct (IHm y F2 eq_refl) as (bs & B1 & ->).
          exists (x :: bs). split; [constructor; auto|reflexivity]. }
      destruct (G (l :: ls) c IH) as (bs & B & ->); [exact H|]. apply tb_node; [discriminate|exact B].
Qed.

Lemma recorded_dec n s : match n with NRaw _ d => s =? zlen d | NProto _ b _ => match FSNodeFromBytes b with Ok f => FileSize f =? s | _ => false end end = true ->
  recorded_size n s.
Proof.
  destruct n as [p d|p b ls]; cbn [recorded_size]; [lia|]. destruct (FSNodeFromBytes b) as [f| | |]; try discriminate.
  intros H. exists f. split; [reflexivity|lia].
Qed.

(** A file of one block that holds its data itself. *)
Definition inline_import := balanced_import 9 (limit 2) false (map EvData [[x61; x62]]) astore.
Definition inline_base := ok_node (fst inline_import).
Definition inline_append := trickle_append 9 9 (limit 2) false (map EvData [[x63]]) inline_base (snd inline_import).
Definition inline_root := ok_node (fst (fst inline_append)).

Lemma append_inline_refuted : exists dbp base w root w',
  balanced_import 9 dbp false (map EvData [[x61; x62]]) astore = (Ok base, w) /\
  file_content base [x61; x62] /\
  trickle_append 9 9 dbp false (map EvData [[x63]]) base w = (Ok root, root, w') /\
  tree_bytes root [x63] /\ recorded_size root 3.
Proof.
  exists (limit 2), inline_base, (snd inline_import), inline_root, (snd inline_append).
  assert (E : balanced_import 9 (limit 2) false (map EvData [[x61; x62]]) astore = (Ok inline_base, snd inline_import)) by (vm_compute; reflexivity).
  split; [exact E|]. split.
  { apply balanced_content in E as (chunks & Ec & C & _). apply (map_EvData_inj [[x61; x62]]) in Ec. subst chunks. exact C. }
  split; [vm_compute; reflexivity|]. split.
  - apply tree_read_sound. vm_compute. reflexivity.
  - apply recorded_dec. vm_compute. reflexivity.
Qed.

(** A file built with more links per node than the limit of the append. *)
Definition wide_import := trickle_import 9 (limit 3) false (map EvData [[x61]; [x62]; [x63]]) astore.
Definition wide_base := ok_node (fst wide_import).
Definition wide_append := trickle_append 9 9 (limit 2) false (map EvData [[x64]]) wide_base (snd wide_import).
Definition wide_root := ok_node (fst (fst wide_append)).

Lemma append_limit_refuted : exists base w root w',
  trickle_import 9 (limit 3) false (map EvData [[x61]; [x62]; [x63]]) astore = (Ok base, w) /\
  file_content base [x61; x62; x63] /\
  trickle_append 9 9 (limit 2) false (map EvData [[x64]]) base w = (Ok root, root, w') /\
  tree_bytes root [x61; x62; x64] /\ recorded_size root 4.
Proof.
  exists wide_base, (snd wide_import), wide_root, (snd wide_append).
  assert (E : trickle_import 9 (limit 3) false (map EvData [[x61]; [x62]; [x63]]) astore = (Ok wide_base, snd wide_import)) by (vm_compute; reflexivity).
  split; [exact E|]. split.
  { apply trickle_content in E as (chunks & Ec & C & _); [|discriminate|cbn; lia]. apply (map_EvData_inj [[x61]; [x62]; [x63]]) in Ec. subst chunks. exact C. }
  split; [vm_compute; reflexivity|].
  split; [apply tree_read_sound; vm_compute; reflexivity|]. apply recorded_dec. vm_compute. reflexivity.
Qed.

(** One leaf per node; the base has exactly its one leaf. *)
Definition deep_import := trickle_import 9 (limit 1) false (map EvData [[x61]]) astore.
Definition deep_base := ok_node (fst deep_import).
Definition deep_append := trickle_append 9 9 (limit 1) false (map EvData [[x62]; [x63]]) deep_base (snd deep_import).
Definition deep_root := ok_node (fst (fst deep_append)).

Lemma append_structure_refuted : exists base w root w',
  trickle_import 9 (limit 1) false (map EvData [[x61]]) astore = (Ok base, w) /\
  VerifyTrickleDagStructure w base (mkVparams 1 4 None false) = Ok tt /\
  trickle_append 9 9 (limit 1) false (map EvData [[x62]; [x63]]) base w = (Ok root, root, w') /\
  (forall l m, In l (node_links root) -> reach (lto l) m -> stored w' m = true) /\
  VerifyTrickleDagStructure w' root (mkVparams 1 4 None false) = Err EVerify.
Proof.
  exists deep_base, (snd deep_import), deep_root, (snd deep_append).
  assert (E : trickle_import 9 (limit 1) false (map EvData [[x61]]) astore = (Ok deep_base, snd deep_import)) by (vm_compute; reflexivity).
  assert (A : trickle_append 9 9 (limit 1) false (map EvData [[x62]; [x63]]) deep_base (snd deep_import) = (Ok deep_root, deep_root, snd deep_append)) by (vm_compute; reflexivity).
  split; [exact E|]. split; [vm_compute; reflexivity|]. split; [exact A|]. split; [|vm_compute; reflexivity].
  eapply import_append_stored; [..|exact E|exact A]; [cbn; lia|cbn; lia|cbn; lia|]. apply Nat.leb_le. vm_compute. reflexivity.
Qed.

(** The same import and append: the new root itself is not in the store. *)
Lemma append_root_refuted : exists base w root w',
  trickle_import 9 (limit 1) false (map EvData [[x61]]) astore = (Ok base, w) /\
  trickle_append 9 9 (limit 1) false (map EvData [[x62]; [x63]]) base w = (Ok root, root, w') /\
  stored w' root = false.
Proof.
  exists deep_base, (snd deep_import), deep_root, (snd deep_append).
  split; [vm_compute; reflexivity|]. split; vm_compute; reflexivity.
Qed.

(** A store that stops accepting blocks after the first four. *)
Definition four_adds : world := mkWorld (fun _ => false) [] 0 (fun i => (i <? 4)%nat) (fun _ => true).
Definition fail_import := trickle_import 9 (limit 5) false (map EvData [[x61]; [x62]]) four_adds.
Definition fail_base := ok_node (fst fail_import).
Definition fail_append := trickle_append 9 9 (limit 5) false (map EvData [[x63]; [x64]; [x65]]) fail_base (snd fail_import).

Lemma append_failure_refuted : exists base w base' w',
  trickle_import 9 (limit 5) false (map EvData [[x61]; [x62]]) four_adds = (Ok base, w) /\
  trickle_append 9 9 (limit 5) false (map EvData [[x63]; [x64]; [x65]]) base w = (Err EAdd, base', w') /\
  tree_bytes base [x61; x62] /\ tree_bytes base' [x61; x62; x63; x64] /\ recorded_size base' 2.
Proof.
  exists fail_base, (snd fail_import), (snd (fst fail_append)), (snd fail_append).
  split; [vm_compute; reflexivity|]. split; [vm_compute; reflexivity|].
  split; [apply tree_read_sound; vm_compute; reflexivity|]. split; [apply tree_read_sound; vm_compute; reflexivity|].
  apply recorded_dec. vm_compute. reflexivity.
Qed.
