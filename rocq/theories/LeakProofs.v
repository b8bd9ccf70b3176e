(** Growing a file and cutting it back leaves an empty block behind. *)
From Verif Require Import Base Pb PbProofs FSNode FSNodeProofs Dag DagProofs Builder Balanced Trickle Importer Reader Modifier
  SpecFile SpecAppend SpecModifier BuilderProofs BalancedProofs ImportProofs AppendProofs AppendRun DirBasic AppendSame AppendBegun SpecShare ShareProofs EdgeProofs
  ReaderWitness ModifierRun ModifierProofs TruncateProofs ModifierFacts ShortenProofs TraceProofs SpecPieces SpecLeak.
From Coq Require Import Permutation.
Local Notation longer := AppendSame.longer. Local Notation synced := EdgeProofs.synced.

(** ** The leaves that are not empty inner nodes *)

Definition keep (n : node) : bool :=
  match n with
  | NRaw _ _ => true
  | NProto _ b _ => match FSNodeFromBytes b with Ok f => negb ((getType f =? TFile) && (zlen (getData f) =? 0)) | _ => true end
  end.
Definition fl (ls : list link) : list node := flat_map (fun l => leaves (lto l)) ls.
Definition dl (n : node) : list node := filter keep (leaves n).
Definition kl (ls : list link) : list node := filter keep (fl ls).
Definition lx (l1 l2 : list link) : Prop := exists E, kl l2 = kl l1 ++ E.

Lemma leaves_links p b ls : ls <> [] -> leaves (NProto p b ls) = fl ls.
Proof. destruct ls; [contradiction|]. reflexivity. Qed.
Lemma kl_app a b : kl (a ++ b) = kl a ++ kl b.
Proof. unfold kl, fl. now rewrite flat_map_app, filter_app. Qed.
Lemma inner_dl pi n : trickle_inner pi n -> dl n = kl (node_links n).
Proof.
  intros (q & b & ls & f & -> & _ & D & T & W). unfold dl, kl. cbn [node_links]. destruct ls as [|l ls]; [|now rewrite leaves_links by discriminate].
  cbn [leaves filter keep]. rewrite D, T, W. reflexivity.
Qed.
Lemma lx_refl a : lx a a. Proof. exists []. now rewrite app_nil_r. Qed.
Lemma lx_app a b : lx a (a ++ b). Proof. exists (kl b). apply kl_app. Qed.
Lemma lx_trans a b c : lx a b -> lx b c -> lx a c.
Proof. intros (E & HE) (F & HF). exists (E ++ F). now rewrite HF, HE, app_assoc. Qed.
Lemma lx_longer n n' : longer n n' -> lx (f_links n) (f_links n').
Proof. intros (E & -> & _). apply lx_app. Qed.
Lemma lx_last B x y : (exists E, dl (lto y) = dl (lto x) ++ E) -> lx (B ++ [x]) (B ++ [y]).
Proof. intros (E & HE). exists E. rewrite !kl_app, <- app_assoc. f_equal. unfold kl, fl. cbn [flat_map]. rewrite !app_nil_r. exact HE. Qed.

Lemma fill_cfg : forall f n d n' d', fill_loop (NewLeafDataNode TRaw) f (n, d) = (Ok tt, (n', d')) -> f_links n' = f_links n -> cfg d' = cfg d.
Proof.
  intros [|f] n d n' d' E L; cbn [fill_loop] in E; (destruct (_ <? _); [|injection E as <- <-; reflexivity]);
    apply bind_ok in E as (b & [m e] & A & E); apply on_db_ok in A as (A & ->); apply done_ok in A as (_ & C & _); (destruct b; [injection E as <- <-; exact C|]);
    apply bind_ok in E as (c & [m e2] & A & E); apply on_db_ok in A as (_ & ->); apply bind_ok in E as ([] & [m3 e3] & A & E); apply AddChild_ok in A as (-> & _); [discriminate|].
  apply EdgeProofs.fill_grows in E as (F & HF & _). cbn [f_links] in HF. rewrite HF, <- app_assoc in L. apply (f_equal (@length _)) in L. rewrite app_length in L. cbn [app length] in L. lia.
Qed.
Lemma layer_cfg n d n' d' : FillNodeLayer (n, d) = (Ok tt, (n', d')) -> f_links n' = f_links n -> cfg d' = cfg d.
Proof. unfold FillNodeLayer. intros E L. apply bind_ok in E as ([] & [m e] & A & E). apply commit_inv in E as (b & _ & -> & ->). eapply fill_cfg; eassumption. Qed.

Section leak.
  Variable k : Z.
  Local Notation lo := (loose k 4 (fun _ => True) (trickle_inner (fun _ => True))).
  Definition deep (ls : list link) : Prop := forall i l, nth_error ls i = Some l -> k <= Z.of_nat i -> exists D, lo D (lto l).
  Lemma lo_deep D n : lo D n -> deep (node_links n) /\ dl n = kl (node_links n).
  Proof. intros H. inversion H as [? ? Hi H1 H2 H3]; subst. split; [intros i l Hl Hk; eauto|eapply inner_dl, Hi]. Qed.


  Lemma last_lx fuel rec dp rp n d n' d' ls E : (forall mx n d n' d', fine n -> deep (f_links n) -> Forall unnamed (f_links n) -> db_maxlinks d = k -> rec mx (n, d) = (Ok tt, (n', d')) -> lx (f_links n) (f_links n') /\ Forall unnamed (f_links n')) ->
    synced n -> f_links n = ls ++ E -> Forall unnamed (f_links n) -> (forall l, In l ls -> exists cs, file_dag (lto l) cs) -> deep ls -> (E = [] -> db_maxlinks d = k) ->
    appendFillLastChild fuel rec dp rp (n, d) = (Ok tt, (n', d')) -> lx ls (f_links n') /\ Forall unnamed (f_links n').
  Proof.
    intros IH Hs HE HU Hls Hdeep Hk H. unfold appendFillLastChild in H. apply bind_ok in H as (n0 & s1 & H2 & H). apply get_fsn_ok in H2 as (-> & ->). apply bind_ok in H as (d0 & s1 & H2 & H). apply get_db_ok in H2 as (-> & ->). cbn [fst snd] in H.
    destruct (fNumChildren n <=? db_maxlinks d) eqn:Enum; [apply ret_ok in H as (_ & H); injection H as -> ->; split; [rewrite HE; apply lx_app|exact HU]|].
    apply bind_ok in H as (ch & s2 & H2 & H). apply lift_ok in H2 as (H2 & ->). apply bind_ok in H as (nc & [n2 d2] & H3 & H). unfold on_fsn in H3. cbn [fst snd] in H3.
    destruct (rec (dp - 1) (ch, d)) as [[[]|e| |] [n3 d3]] eqn:E3; try discriminate. injection H3 as <- <- <-.
    apply bind_ok in H as (n4 & s4 & H4 & H). apply lift_ok in H4 as (H4 & ->). apply bind_ok in H as ([] & s5 & H5 & H). unfold set_fsn in H5. cbn [snd] in H5. injection H5 as <-.
    apply bind_ok in H as (fln & s5 & H5 & H). apply lift_ok in H5 as (H5 & ->). apply bind_ok in H as ([] & [n6 d6] & H6 & H). apply AddChild_ok in H6 as (-> & _).
    assert (L6 : longer (mkFsn (f_prefix n4) (f_bytes n4) (f_links n4 ++ [make_link [] (GetDagNode fln)]) (AddBlockSize (fFileSize n3) (f_file n4))) n').
    { destruct (rp =? 0); [apply ret_ok in H as (_ & H); injection H as -> ->; apply longer_refl|eapply add_children_longer, H]. }
    clear H. unfold fNumChildren, NumChildren in *. rewrite Hs in *.
    unfold GetChild in H2. destruct (_ <? 0) eqn:E0 in H2; [discriminate|]. apply Z.ltb_ge in E0.
    destruct (exists_last (l := f_links n)) as (B & l & EB); [intros E1; rewrite E1 in E0; unfold zlen in E0; cbn [length] in E0; lia|].
    rewrite EB in H2, H4, Enum. assert (EZ : zlen (B ++ [l]) - 1 = zlen B) by (rewrite zlen_app; change (zlen [l]) with 1; lia). rewrite EB in E0. rewrite EZ in *.
    rewrite nth_error_app2 in H2 by (unfold zlen; lia). replace (Z.to_nat (zlen B) - length B)%nat with O in H2 by (unfold zlen; lia). cbn [nth_error] in H2.
    unfold RemoveChild in H4. destruct (RemoveBlockSize _ _) as [f4| | |]; try discriminate. cbn [rbind] in H4. rewrite EB in H4. destruct (_ <=? _) in H4; [discriminate|]. injection H4 as <-. cbn [f_links] in L6.
    assert (EL : ztake (zlen B) (B ++ [l]) ++ zdrop (zlen B + 1) (B ++ [l]) = B).
    { unfold ztake, zdrop, zlen. rewrite firstn_app, Nat2Z.id, Nat.sub_diag, firstn_O, app_nil_r, firstn_all. rewrite skipn_all2 by (rewrite app_length; cbn; lia). apply app_nil_r. }
    rewrite EL in L6. destruct L6 as (F & L6 & LU). cbn [f_links] in L6. unfold dserv_get in H2. destruct (_ && _) in H2; cbn [rbind] in H2; [|discriminate].
    rewrite EB in HU. apply Forall_app in HU as (HUB & HUl).
    assert (U' : Forall unnamed (f_links n')).
    { rewrite L6. apply Forall_app. split; [|exact LU]. apply Forall_app. split; [exact HUB|]. constructor; [reflexivity|constructor]. }
    split; [|exact U'].
    destruct (lto l) as [p0 b0|p0 b0 ls0] eqn:El; [discriminate|].
    assert (X : E = [] \/ exists E' y, E = E' ++ [y]) by (destruct E as [|z E]; [now left|right; destruct (exists_last (l := z :: E)) as (E' & y & ->); [discriminate|eauto]]).
    destruct X as [-> |(E' & y & ->)].
    - rewrite app_nil_r, EB in HE. subst ls. rewrite L6. eapply lx_trans; [|apply lx_app]. apply lx_last.
      destruct (Hls l ltac:(apply in_or_app; right; now left)) as (cs & Hf). rewrite El in Hf. destruct (open_fine _ _ _ _ _ Hf H2) as (Hfi & Hl0).
      assert (HB : k <= Z.of_nat (length B)) by (rewrite (Hk eq_refl) in Enum; unfold zlen in *; rewrite app_length in Enum; cbn [length] in Enum; lia).
      destruct (Hdeep (length B) l) as (D & HD); [rewrite nth_error_app2 by lia; now rewrite Nat.sub_diag|exact HB|]. rewrite El in HD. destruct (lo_deep _ _ HD) as (Hd0 & Hk0). cbn [node_links] in Hd0, Hk0.
      assert (U0 : Forall unnamed ls0). { inversion Hf as [|? ? ? ? ? ? ?|? ? ? ? ? ? M]; subst; [constructor|exact M]. }
      destruct (IH _ _ _ _ _ Hfi ltac:(rewrite Hl0; exact Hd0) ltac:(rewrite Hl0; exact U0) (Hk eq_refl) E3) as ((G & HG) & U3). rewrite Hl0 in HG.
      rewrite El, Hk0. cbn [make_link lto]. unfold Commit in H5. destruct (GetBytes (f_file n3)) as [b3| | |]; try discriminate. cbn [rbind] in H5. injection H5 as <-.
      unfold GetDagNode. cbn [f_prefix f_bytes f_links seal]. rewrite lsort_unnamed by exact U3.
      destruct (f_links n3) as [|z r] eqn:E3l.
      + unfold kl at 1 in HG. cbn in HG. symmetry in HG. apply app_eq_nil in HG as (HG & _). rewrite HG. eexists. reflexivity.
      + exists G. rewrite <- HG. unfold dl. rewrite leaves_links by discriminate. reflexivity.
    - rewrite EB, app_assoc in HE. apply app_inj_tail in HE as (-> & _). rewrite L6, <- !app_assoc. apply lx_app.
  Qed.

  Lemma rec_lx fuel : forall rf mx n d n' d', fine n -> deep (f_links n) -> Forall unnamed (f_links n) -> db_maxlinks d = k -> appendRec fuel rf mx (n, d) = (Ok tt, (n', d')) -> lx (f_links n) (f_links n') /\ Forall unnamed (f_links n').
  Proof.
    induction rf as [|rf IH]; intros mx n d n' d' (Hs & Hf) Hd HU Hk H; cbn [appendRec] in H; (destruct (mx =? 0); [apply ret_ok in H as (_ & H); injection H as -> ->; split; [apply lx_refl|exact HU]|]);
      apply bind_ok in H as (dn & [n1 d1] & H1 & H); apply on_db_ok in H1 as (H1 & ->); (destruct dn; [apply ret_ok in H as (_ & H); injection H as -> ->; split; [apply lx_refl|exact HU]|]); [discriminate|].
    apply done_ok in H1 as (_ & C1 & _).
    apply bind_ok in H as (n0 & s1 & H2 & H). apply get_fsn_ok in H2 as (-> & ->). apply bind_ok in H as (d0 & s1 & H2 & H). apply get_db_ok in H2 as (-> & ->). cbn [fst snd] in H.
    destruct (trickleDepthInfo _ _) as [dp0 rp]. apply bind_ok in H as (dp & [n2 d2] & H2 & H).
    assert (X : longer n n2 /\ synced n2 /\ (f_links n2 = f_links n -> cfg d2 = cfg d1)).
    { destruct (dp0 =? 0); [|apply ret_ok in H2 as (_ & H2); injection H2 as -> ->; split; [apply longer_refl|split; [exact Hs|reflexivity]]].
      apply bind_ok in H2 as ([] & [n3 d3] & H3 & H2). apply ret_ok in H2 as (_ & H2). injection H2 as -> ->. split; [eapply EdgeProofs.layer_longer, H3|]. split; [eapply layer_synced; eassumption|]. eapply layer_cfg, H3. }
    destruct X as ((E & HE & HU2) & Hs2 & Hc2). assert (U2 : Forall unnamed (f_links n2)) by (rewrite HE; apply Forall_app; auto).
    destruct (dp =? mx); [apply ret_ok in H as (_ & H); injection H as -> ->; split; [rewrite HE; apply lx_app|exact U2]|].
    apply bind_ok in H as ([] & [n4 d4] & H4 & H).
    assert (Hk2 : E = [] -> db_maxlinks d2 = k) by (intros ->; rewrite app_nil_r in HE; destruct (cfg_fields _ _ (eq_trans (Hc2 HE) C1)) as (_ & M & _); congruence).
    destruct (last_lx _ _ _ _ _ _ _ _ _ _ IH Hs2 HE U2 Hf Hd Hk2 H4) as (X & U4).
    apply bind_ok in H as (dn & [n5 d5] & H5 & H). apply on_db_ok in H5 as (_ & ->). cbn zeta in H.
    assert (L : longer n4 n') by (destruct (_ <? mx); [eapply depth_loop_longer, H|apply ret_ok in H as (_ & H); injection H as -> ->; apply longer_refl]).
    split; [eapply lx_trans; [exact X|apply lx_longer, L]|]. destruct L as (F & -> & LU). apply Forall_app. auto.
  Qed.

  Lemma append_lx fuel rf dbp fi spl base w r base' w' cs D : pr_maxlinks dbp = k -> file_dag base cs -> lo D base -> trickle_append fuel rf dbp fi spl base w = (Ok r, base', w') ->
    lx (node_links base) (node_links r).
  Proof.
    intros Hk Hb HD H. apply append_inv in H as [(e & _ & H & _)|(d & d' & _ & L & _ & _ & _ & Hc & _)]; [discriminate|]. unfold Append in L. destruct base as [p b|p b ls]; [discriminate|].
    destruct (NewFSNFromDag p b ls) as [n| | |] eqn:En; try discriminate. destruct (open_fine _ _ _ _ _ Hb En) as ((Hs & Hf) & Hl).
    destruct (append_body fuel rf (n, d)) as [[[]| | |] [n' d1]] eqn:H; try discriminate. injection L as <- _ _. destruct (lo_deep _ _ HD) as (Hd & _). cbn [GetDagNode node_links] in *.
    assert (HU : Forall unnamed ls). { inversion Hb as [|? ? ? ? ? ? ?|? ? ? ? ? ? M]; subst; [constructor|exact M]. }
    assert (Hm : db_maxlinks d = k) by (unfold cfg in Hc; congruence). rewrite <- Hl in *. clear - Hs Hf Hd HU Hm H. revert H.
    unfold append_body. intros H. apply bind_ok in H as (n0 & s1 & H2 & H). apply get_fsn_ok in H2 as (-> & ->). apply bind_ok in H as (d0 & s1 & H2 & H). apply get_db_ok in H2 as (-> & ->). cbn [fst snd] in H.
    destruct (trickleDepthInfo _ _) as [dp0 rp]. apply bind_ok in H as (o & [n2 d2] & H2 & H).
    assert (X : longer n n2 /\ synced n2 /\ (f_links n2 = f_links n -> cfg d2 = cfg d)).
    { destruct (dp0 =? 0); [|apply ret_ok in H2 as (_ & H2); injection H2 as -> ->; split; [apply longer_refl|split; [exact Hs|reflexivity]]].
      apply bind_ok in H2 as ([] & [n3 d3] & H3 & H2). apply bind_ok in H2 as (dn & [n5 d5] & H5 & H2). apply on_db_ok in H5 as (H5 & ->). apply done_ok in H5 as (_ & C5 & _). apply ret_ok in H2 as (_ & H2). injection H2 as -> ->.
      split; [eapply EdgeProofs.layer_longer, H3|]. split; [eapply layer_synced; eassumption|]. intros X. rewrite C5. eapply layer_cfg; eassumption. }
    destruct X as ((E & HE & HU2) & Hs2 & Hc2). destruct o as [dp|]; [|apply ret_ok in H as (_ & H); injection H as -> ->; rewrite HE; apply lx_app].
    assert (U2 : Forall unnamed (f_links n2)) by (rewrite HE; apply Forall_app; auto).
    apply bind_ok in H as ([] & [n4 d4] & H4 & H). 
    assert (Hk2 : E = [] -> db_maxlinks d2 = k) by (intros ->; rewrite app_nil_r in HE; destruct (cfg_fields _ _ (Hc2 HE)) as (_ & M & _); congruence).
    destruct (last_lx _ _ _ _ _ _ _ _ _ _ (rec_lx fuel rf) Hs2 HE U2 Hf Hd Hk2 H4) as (X & U4).
    apply bind_ok in H as (dn & [n5 d5] & H5 & H). apply on_db_ok in H5 as (_ & ->). cbn zeta in H. apply bind_ok in H as ([] & [n6 d6] & H6 & H).
    eapply lx_trans; [exact X|]. apply commit_longer in H. rewrite H. apply lx_longer. eapply depth_loop_longer, H6.
  Qed.
End leak.

(** ** Sizes of leaves *)

Definition len (n : node) : Z :=
  match n with
  | NRaw _ d => zlen d
  | NProto _ b _ => match FSNodeFromBytes b with Ok f => zlen (getData f) | _ => 0 end
  end.
Definition tot (L : list node) : Z := fold_right (fun x a => len x + a) 0 L.
Definition cnt (L : list node) : Z := zlen (filter blank L).
Lemma len_nonneg x : 0 <= len x.
Proof. destruct x; cbn [len]; [apply zlen_nonneg|]. destruct (FSNodeFromBytes _); try lia. apply zlen_nonneg. Qed.
Lemma tot_nonneg L : 0 <= tot L.
Proof. induction L as [|x L IH]; cbn [tot fold_right]; [lia|]. fold (tot L). pose proof (len_nonneg x). lia. Qed.
Lemma tot_app a b : tot (a ++ b) = tot a + tot b.
Proof. induction a as [|x a IH]; cbn [app tot fold_right]; [reflexivity|]. fold (tot (a ++ b)). fold (tot a). lia. Qed.
Lemma keep_len x : keep x = false -> len x = 0.
Proof. destruct x; cbn [keep len]; [discriminate|]. destruct (FSNodeFromBytes _); try reflexivity. intros H. apply negb_false_iff, andb_prop in H as (_ & H). lia. Qed.
Lemma tot_keep L : tot (filter keep L) = tot L.
Proof.
  induction L as [|x L IH]; [reflexivity|]. cbn [filter]. destruct (keep x) eqn:E; cbn [tot fold_right].
  - fold (tot (filter keep L)). fold (tot L). lia.
  - fold (tot L). rewrite (keep_len x E). exact IH.
Qed.
Lemma blank_keep x : blank x = true -> keep x = true.
Proof.
  destruct x as [p d|p b ls]; cbn [blank keep]; [reflexivity|]. destruct (FSNodeFromBytes b) as [f| | |]; try discriminate. intros H. apply andb_prop in H as (H & _). apply Z.eqb_eq in H. rewrite H. reflexivity.
Qed.
Lemma cnt_keep L : cnt (filter keep L) = cnt L.
Proof.
  unfold cnt. induction L as [|x L IH]; [reflexivity|]. cbn [filter]. destruct (keep x) eqn:E; cbn [filter]; destruct (blank x) eqn:B; auto.
  - rewrite !zlen_cons. lia.
  - apply blank_keep in B. congruence.
Qed.
Lemma cnt_app a b : cnt (a ++ b) = cnt a + cnt b.
Proof. unfold cnt. now rewrite filter_app, zlen_app. Qed.
Lemma cnt_nonneg L : 0 <= cnt L. Proof. apply zlen_nonneg. Qed.

Lemma tot_links ls : (forall l, In l ls -> forall cs, file_dag (lto l) cs -> tot (leaves (lto l)) = zlen (concat cs)) -> forall css, Forall2 file_dag (map lto ls) css -> tot (fl ls) = zlen (concat (concat css)).
Proof.
  induction ls as [|l ls IH]; intros H css F; cbn [map] in F; inversion F as [|? c ? r F1 F2]; subst; [reflexivity|]. unfold fl. cbn [flat_map concat]. rewrite tot_app, concat_app, zlen_app. f_equal; [apply H; [now left|exact F1]|].
  apply IH; [|exact F2]. intros l' Hl. apply H. now right.
Qed.
Lemma tot_leaves : forall n cs, file_dag n cs -> tot (leaves n) = zlen (concat cs).
Proof.
  induction n as [p d|p x ls IH] using DagProofs.node_ind'; intros cs F.
  - inversion F; subst. cbn [leaves tot fold_right len concat]. rewrite app_nil_r. apply Z.add_0_r.
  - inversion F as [|? ? fs D|? ? fs ? css Hne M D _ W FF _ _]; subst.
    + cbn [leaves tot fold_right len concat]. rewrite D, app_nil_r. apply Z.add_0_r.
    + rewrite leaves_links by exact Hne. apply tot_links; [|exact FF]. intros l Hl. rewrite Forall_forall in IH. exact (IH l Hl).
Qed.

(** ** The leaves after truncating *)

Lemma trunc_leaves : forall n cs fuel s w n' w', file_dag n cs -> zlen (concat cs) < 9223372036854775808 -> 0 <= s < zlen (concat cs) -> dagTruncate fuel n s w = (Ok n', w') ->
  seal n' = n' /\ exists L1 x L2 x', leaves n = L1 ++ x :: L2 /\ leaves n' = L1 ++ [x'] /\ tot L1 <= s < tot L1 + len x /\ (s = tot L1 -> blank x' = true).
Proof.
  induction n as [p d|p b ls IH] using DagProofs.node_ind'; intros cs fuel s w n' w' F Hl Hs E.
  - apply raw_cut_is in E as ->. split; [reflexivity|]. exists [], (NRaw p d), [], (NRaw p (ztake s d)). split; [reflexivity|]. split; [reflexivity|]. inversion F; subst. cbn [concat] in Hs. rewrite app_nil_r in Hs. cbn [tot fold_right len].
    split; [lia|]. intros ->. reflexivity.
  - inversion F as [|? ? fs D|? ? fs ? css Hne M D _ W FF _ _]; subst.
    + destruct (leaf_cut_is _ _ _ _ _ _ _ _ D E) as (b' & X & ->). split; [reflexivity|]. exists [], (NProto p b []), [], (NProto p b' []). split; [reflexivity|]. split; [reflexivity|]. cbn [concat] in Hs. rewrite app_nil_r in Hs. cbn [tot fold_right len]. rewrite D.
      split; [lia|]. intros ->. cbn [blank]. destruct (WrapData_decode (option_map (ztake 0) (d_data fs))) as (b2 & X2 & D2).
      { destruct (d_data fs) as [v|]; cbn [option_map obytes]; [change (ztake 0 v) with (@nil byte)|]; reflexivity. }
      rewrite X in X2. injection X2 as <-. unfold FSNodeFromBytes. rewrite D2. cbn [rbind]. destruct (d_data fs); reflexivity.
    + destruct (child_at _ _ _ FF Hs) as (A & z & B & ca & cx & cb & -> & -> & HA & Hx & _ & Hb).
      assert (HL : zlen (concat (concat ca)) + zlen (concat cx) < 9223372036854775808) by (rewrite dag_total in Hl; pose proof (zlen_nonneg (concat (concat cb))); unfold bytes in *; lia).
      destruct (node_cut fuel p b fs A z B ca cx s w n' w' D W HA Hx ltac:(unfold bytes in *; lia) HL E) as (fu & nc & w0 & w1 & d & _ & X & _ & ->).
      apply Forall_app in IH as (_ & IH). inversion IH as [|? ? IHz _]; subst. pose proof (zlen_nonneg (concat (concat ca))) as K1.
      destruct (IHz cx fu (s - zlen (concat (concat ca))) w0 nc w1 Hx ltac:(unfold bytes in *; lia) ltac:(unfold bytes in *; lia) X) as (Sn & L1 & x & L2 & x' & E1 & E2 & E3 & E4).
      assert (M' : Forall (fun l => lname l = []) (A ++ [make_link [] nc])) by (apply Forall_app in M as (M & _); apply Forall_app; split; [exact M|constructor; [reflexivity|constructor]]).
      cbn [seal]. rewrite !(lsort_unnamed (A ++ [make_link [] nc]) M'). split; [reflexivity|].
      assert (TA : tot (fl A) = zlen (concat (concat ca))) by (apply tot_links; [|exact HA]; intros l _ cs Hc; apply tot_leaves, Hc).
      exists (fl A ++ L1), x, (L2 ++ fl B), x'. rewrite !leaves_links by (first [apply mid_not_nil|apply last_not_nil]). unfold fl. rewrite !flat_map_app. cbn [flat_map make_link lto]. rewrite Sn, E1, E2, app_nil_r, <- !app_assoc. cbn [app].
      split; [reflexivity|]. split; [reflexivity|]. fold (fl A). rewrite tot_app, TA. split; [unfold bytes in *; lia|]. intros ->. apply E4. unfold bytes in *; lia.
Qed.

(** ** One round *)

Lemma split_lists {A} (a b c e : list A) : a ++ b = c ++ e -> (exists M, a = c ++ M /\ e = M ++ b) \/ (exists M, c = a ++ M /\ b = M ++ e).
Proof.
  revert c. induction a as [|x a IH]; intros [|y c] H; cbn [app] in H.
  - left. exists []. auto.
  - right. exists (y :: c). auto.
  - left. exists (x :: a). auto.
  - injection H as -> H. destruct (IH _ H) as [(M & -> & ->)|(M & -> & ->)]; [left|right]; exists M; auto.
Qed.
Lemma round_leaves n n1 n2 s L1 x L2 x' E : dl n1 = dl n ++ E -> tot (leaves n) = s -> leaves n1 = L1 ++ x :: L2 -> leaves n2 = L1 ++ [x'] -> tot L1 <= s < tot L1 + len x -> (s = tot L1 -> blank x' = true) -> blanks n + 1 <= blanks n2.
Proof.
  intros HE Hs H1 H2 H3 H4. unfold dl in HE. rewrite H1, filter_app in HE. cbn [filter] in HE. assert (Kx : keep x = true) by (destruct (keep x) eqn:Kx; [reflexivity|]; apply keep_len in Kx; lia). rewrite Kx in HE.
  change (blanks n) with (cnt (leaves n)). change (blanks n2) with (cnt (leaves n2)). rewrite H2, cnt_app. rewrite <- (cnt_keep (leaves n)), <- (cnt_keep L1). rewrite <- tot_keep in Hs. rewrite <- (tot_keep L1) in H3, H4.
  destruct (split_lists _ _ _ _ HE) as [(M & E1 & _)|(M & E1 & E2)].
  - rewrite E1, cnt_app. rewrite E1, tot_app in H3, H4. pose proof (tot_nonneg M). pose proof (cnt_nonneg M). assert (B : blank x' = true) by (apply H4; lia). unfold cnt at 4. cbn [filter]. rewrite B. change (zlen [x']) with 1. lia.
  - destruct M as [|y M]; cbn [app] in E2.
    + rewrite app_nil_r in E1. rewrite E1 in *. assert (B : blank x' = true) by (apply H4; lia). unfold cnt at 3. cbn [filter]. rewrite B. change (zlen [x']) with 1. lia.
    + injection E2 as <- _. rewrite E1, tot_app in Hs. cbn [tot fold_right] in Hs. fold (tot M) in Hs. pose proof (tot_nonneg M). lia.
Qed.

Lemma grow_inv split d n c w n1 s1 : file_content n c -> growable K n -> zlen c < d < 9223372036854775808 -> truncate_to split d n w = (Ok n1, s1) ->
  exists fuel rf w', trickle_append fuel rf (grow_params n) false (map EvData (zero_chunks (d - zlen c))) n w = (Ok n1, n1, w').
Proof.
  intros Hf Hg Hd E. pose proof (zlen_nonneg c) as H0. destruct Hf as (cs & Hcs & Ec). assert (Hf : file_content n c) by (exists cs; auto). unfold truncate_to in E.
  unfold mTruncate in E. unfold bind at 1 in E. rewrite Sync_none in E by reflexivity. unfold bind at 1 in E.
  assert (S : mSize (NewDagModifier n, w) = (Ok (zlen c), (NewDagModifier n, w))).
  { unfold mSize, bind, cur_node, lift, get_mod. cbn [fst snd NewDagModifier m_node m_buf]. rewrite (fileSize_dag n cs Hcs) by (rewrite <- Ec; lia). cbn [fst m_buf]. unfold ret.
    rewrite <- Ec. now rewrite i64_small by (unfold two63; lia). }
  rewrite S in E. replace (d =? zlen c) with false in E by lia. replace (zlen c <? d) with true in E by lia. rewrite i64_small in E by (unfold two63; lia).
  unfold expandSparse, bind at 1 in E. unfold append_cur in E. cbn [fst snd NewDagModifier m_node] in E. unfold appendData in E.
  destruct (trickle_append _ _ _ _ _ _ _) as [[r n'] w'] eqn:Ea.
  assert (R := append_result (Datatypes.S (length (zero_chunks (d - zlen c)))) (weight n) (mkParams K (m_raw (NewDagModifier n)) (Some (m_prefix (NewDagModifier n))) false) false (map EvData (zero_chunks (d - zlen c))) n w r n' w' cs K_pos ltac:(rewrite map_length; lia) (height_weight n) Hcs (growable_appendable K n K_pos Hg) Ea).
  destruct r as [root|e| |]; try discriminate. destruct R as [[-> _] _].
  match type of E with context [mod_add ?a (?mm, w')] => pose proof (mod_add_spec mm w' a) as B; destruct (mod_add a (mm, w')) as [[u6|e| |] [m6 w6]] eqn:Em end; try discriminate.
  destruct B as (-> & _). unfold mGetNode, bind in E. rewrite Sync_none in E by reflexivity. rewrite change_none in E by reflexivity. cbn [fst m_set_node m_node] in E. injection E as E _.
  do 3 eexists. rewrite <- E. exact Ea.
Qed.

Lemma round split d n c w1 w2 n1 n2 s1 s2 : file_content n c -> growable K n -> zlen c < d < 9223372036854775808 -> truncate_to split d n w1 = (Ok n1, s1) -> truncate_to split (zlen c) n1 w2 = (Ok n2, s2) ->
  file_content n2 c /\ growable K n2 /\ blanks n + 1 <= blanks n2.
Proof.
  intros Hf Hg Hd E1 E2. pose proof (zlen_nonneg c) as H0. pose proof (truncate_to_spec split d n c w1 Hf ltac:(lia) ltac:(lia) (fun _ => Hg)) as T. rewrite E1 in T. destruct s1 as [m1 v1]. destruct T as (Hf1 & _ & _ & _ & _ & G1). specialize (G1 Hg).
  assert (Hz : zlen (resize c d) = d) by (unfold resize; rewrite zlen_ztake by (rewrite pad_len; lia); reflexivity).
  pose proof (truncate_to_spec split (zlen c) n1 (resize c d) w2 Hf1 ltac:(lia) ltac:(lia) ltac:(intros X; lia)) as T2. rewrite E2 in T2. destruct s2 as [m2 v2]. destruct T2 as (Hf2 & _ & _ & _ & _ & G2). specialize (G2 G1).
  split; [unfold resize in Hf2 at 1; unfold resize in Hf2; rewrite pad_small in Hf2 by (rewrite zlen_ztake; rewrite ?pad_len; lia); rewrite (ztake_all d) in Hf2 by (rewrite pad_len; lia); unfold pad in Hf2; rewrite ztake_app_l, ztake_all in Hf2 by (unfold bytes in *; lia); exact Hf2|]. split; [exact G2|].
  destruct (grow_inv _ _ _ _ _ _ _ Hf Hg Hd E1) as (fuel & rf & w' & Ea). destruct Hf as (cs & Hcs & Ec). destruct Hf1 as (cs1 & Hcs1 & Ec1).
  destruct (append_lx K _ _ _ _ _ _ _ _ _ _ _ _ (eq_refl : pr_maxlinks (grow_params n) = K) Hcs Hg Ea) as (E & HE). rewrite <- (proj2 (lo_deep _ _ _ Hg)), <- (proj2 (lo_deep _ _ _ G1)) in HE.
  assert (Z1 : zlen (concat cs1) = d) by (now rewrite <- Ec1). destruct (truncate_to_inv split (zlen c) n1 cs1 w2 n2 (m2, v2) Hcs1 ltac:(lia) ltac:(lia) E2) as (w3 & E3).
  destruct (trunc_leaves n1 cs1 (weight n1) (zlen c) w2 n2 w3 Hcs1 ltac:(lia) ltac:(lia) E3) as (_ & L1 & x & L2 & x' & X1 & X2 & X3 & X4).
  refine (round_leaves n n1 n2 (zlen c) L1 x L2 x' E HE _ X1 X2 X3 X4). rewrite (tot_leaves _ _ Hcs). now rewrite Ec.
Qed.

(** ** Writing at the end *)

Lemma shape_blanks : forall n n', same_shape n n' -> blanks n = blanks n'.
Proof.
  intros n n'. change (blanks n) with (cnt (leaves n)). change (blanks n') with (cnt (leaves n')). revert n'.
  induction n as [p d|p x ls IH] using DagProofs.node_ind'; intros n' S.
  - inversion S; subst. cbn [leaves]. unfold cnt. cbn [filter blank]. rewrite H2. now destruct (_ =? 0).
  - inversion S as [|? ? b' f data S1 S2 S3 S4 S5|? ? ? ls' Hn Hz HF]; subst.
    + cbn [leaves]. unfold cnt. cbn [filter blank]. rewrite S1, S2. rewrite <- S3. change (getType (set_data data f)) with (getType f). change (getData (set_data data f)) with (obytes data). now destruct (_ && _).
    + assert (X : forall l1 l2, Forall (fun l => forall n', same_shape (lto l) n' -> cnt (leaves (lto l)) = cnt (leaves n')) l1 -> Forall2 same_shape (map lto l1) (map lto l2) -> cnt (fl l1) = cnt (fl l2)).
      { clear. induction l1 as [|a l1 I1]; intros [|b l2] H F; inversion F; subst; [reflexivity|]. inversion H; subst. unfold fl in *. cbn [flat_map]. rewrite !cnt_app. f_equal; auto. }
      specialize (X ls ls' IH HF). destruct ls as [|l ls], ls' as [|l' ls']; try discriminate; [reflexivity|]. rewrite !leaves_links by discriminate. exact X.
Qed.

Lemma WriteAt_end split wbsize n c b w : file_content n c -> zlen c + zlen b < 9223372036854775808 ->
  WriteAt split wbsize b (zlen c) (NewDagModifier n, w) = (do _ <- (if wbsize <? zlen b then Sync split else ret tt) ;; ret (zlen b)) (written n (zlen c) b, w).
Proof.
  intros (cs & Hcs & ->) Hl. pose proof (zlen_nonneg b) as Hb. pose proof (zlen_nonneg (concat cs)) as Hc. unfold WriteAt. unfold bind at 1, get_mod at 1. cbn [fst NewDagModifier m_buf m_off].
  rewrite (u64_small (zlen (concat cs))) by (unfold two64; lia).
  assert (W : mWrite split wbsize b (m_set_start (zlen (concat cs)) (NewDagModifier n), w) = (do _ <- (if wbsize <? zlen b then Sync split else ret tt) ;; ret (zlen b)) (written n (zlen (concat cs)) b, w)).
  { unfold mWrite. unfold bind at 1, upd_mod at 1. cbn [fst snd NewDagModifier m_set_start m_set_read m_set_buf m_set_off m_buf m_off m_start m_node m_prefix m_raw app].
    unfold bind at 1, get_mod at 1. cbn [fst m_buf]. rewrite u64_small by (unfold two64; lia). reflexivity. }
  destruct (zlen (concat cs) =? 0) eqn:E.
  - apply Z.eqb_eq in E. rewrite E in *. unfold bind at 1. cbn [ret]. exact W.
  - unfold bind at 1. unfold bind at 1.
    assert (S : mSize (NewDagModifier n, w) = (Ok (zlen (concat cs)), (NewDagModifier n, w))).
    { unfold mSize, bind, cur_node, lift, get_mod. cbn [fst snd NewDagModifier m_node m_buf]. rewrite (fileSize_dag n cs Hcs) by lia. cbn [fst m_buf]. unfold ret.
      now rewrite i64_small by (unfold two63; lia). }
    rewrite S. replace (zlen (concat cs) <? zlen (concat cs)) with false by lia. unfold bind at 1. cbn [ret]. unfold bind at 1. rewrite Sync_none by reflexivity.
    unfold upd_mod. cbn [fst snd]. exact W.
Qed.

Lemma Sync_end split n c b w m' w' : chunker_ok split -> file_content n c -> growable K n -> b <> [] -> zlen c + zlen b < 9223372036854775808 -> Sync split (written n (zlen c) b, w) = (Ok tt, (m', w')) ->
  exists k n1 fuel rf v v', m_node m' = Some n1 /\ m_buf m' = None /\ same_shape n k /\ file_content k c /\ growable K k /\ trickle_append fuel rf (grow_params n) false (map EvData (split b)) k v = (Ok n1, n1, v').
Proof.
  intros Hs Hf Hg Hb Hl E. pose proof (zlen_nonneg c) as Hc0. pose proof (zlen_nonneg b) as Hb0. unfold Sync in E. unfold bind at 1, get_mod at 1 in E. cbn [fst written m_buf] in E. unfold bind at 1, upd_mod at 1 in E. cbn [fst snd] in E.
  unfold bind at 1, cur_node at 1 in E. cbn [fst snd m_set_read m_node m_start written] in E. unfold bind at 1, lift at 1 in E. destruct Hf as (cs & Hcs & Ec). assert (Hf : file_content n c) by (exists cs; auto).
  rewrite (fileSize_dag n cs Hcs) in E by (rewrite <- Ec; lia). rewrite <- Ec in E. replace (zlen c <? zlen c) with false in E by lia. unfold bind at 1 in E. cbn [ret] in E. unfold bind at 1 in E.
  match type of E with context [modify_cur (?mm, w)] => pose proof (modify_cur_spec mm w n c b eq_refl Hf eq_refl ltac:(lia) ltac:(cbn; lia)) as E3; destruct (modify_cur (mm, w)) as [[k|e| |] [m3 w3]] end; try discriminate.
  destruct E3 as ((x & ->) & C3 & Sh & _). cbn [m_start m_set_read m_set_node m_set_buf written] in *. replace (zlen c - zlen c) with 0 in E by lia.
  assert (Ck : file_content k c).
  { replace (ow c (zlen c) b) with c in C3; [exact C3|]. symmetry. apply ow_past. lia. }
  unfold bind at 1 in E. match type of E with context [get_cur k (?mm, w3)] => pose proof (get_cur_spec mm w3 k) as E4; destruct (get_cur k (mm, w3)) as [[u4|e| |] [m4 w4]] end; try discriminate.
  destruct E4 as [-> ->]. unfold bind at 1, get_mod at 1 in E. cbn [fst m_set_node m_set_buf m_buf] in E. change (zdrop 0 b) with b in E. destruct b as [|x0 b]; [contradiction|].
  unfold bind at 1 in E. unfold bind at 1 in E. unfold append_buf in E. unfold append_cur in E. cbn [fst snd m_node m_set_node m_set_buf] in E. unfold appendData in E.
  assert (Gk : growable K k) by (eapply growable_shape; eassumption). destruct Ck as (cs' & Hcs' & Ec').
  destruct (trickle_append _ _ _ _ _ _ _) as [[r n'] v'] eqn:Ea.
  match type of Ea with trickle_append _ _ ?dbp _ (map EvData ?ch) _ _ = _ => assert (R := append_result (Datatypes.S (length ch)) (weight k) dbp false (map EvData ch) k w3 r n' v' cs' K_pos ltac:(rewrite map_length; lia) (height_weight k) Hcs' (growable_appendable K k K_pos Gk) Ea) end.
  destruct r as [root|e| |]; try discriminate. destruct R as [[-> _] _].
  match type of E with context [mod_add ?a (?mm, v')] => pose proof (mod_add_spec mm v' a) as B; destruct (mod_add a (mm, v')) as [[u6|e| |] [m6 w6]] eqn:Em end; try discriminate.
  destruct B as (-> & _). unfold upd_mod in E. cbn [fst snd] in E. injection E as E _. subst m'. exists k, root. do 4 eexists.
  split; [reflexivity|]. split; [reflexivity|]. split; [exact Sh|]. split; [exists cs'; auto|]. split; [exact Gk|]. exact Ea.
Qed.

Lemma write_end_inv split wbsize b n c w n1 s1 : chunker_ok split -> file_content n c -> growable K n -> b <> [] -> zlen c + zlen b < 9223372036854775808 -> write_back split wbsize b (zlen c) n w = (Ok n1, s1) ->
  exists k fuel rf v v', same_shape n k /\ file_content k c /\ growable K k /\ trickle_append fuel rf (grow_params n) false (map EvData (split b)) k v = (Ok n1, n1, v') /\ file_content n1 (c ++ b) /\ growable K n1.
Proof.
  intros Hs Hf Hg Hb Hl E. pose proof (zlen_nonneg c) as Hc0. pose proof (zlen_nonneg b) as Hb0. unfold write_back in E. rewrite (WriteAt_end _ _ _ _ _ _ Hf Hl) in E. unfold bind at 1 in E.
  assert (X : exists m' w', Sync split (written n (zlen c) b, w) = (Ok tt, (m', w')) /\ (m_buf m' = None -> m_node m' = Some n1)).
  { destruct (wbsize <? zlen b).
    - destruct (Sync split (written n (zlen c) b, w)) as [[u|e| |] [m' w']]; try discriminate. destruct u. exists m', w'. split; [reflexivity|]. intros Hn. cbn [ret] in E. unfold mGetNode, bind in E. rewrite Sync_none in E by exact Hn. cbn [fst] in E. destruct (m_node m'); [injection E as -> _; reflexivity|discriminate].
    - cbn [ret] in E. unfold mGetNode, bind in E. destruct (Sync split (written n (zlen c) b, w)) as [[u|e| |] [m' w']]; try discriminate. destruct u. exists m', w'. split; [reflexivity|]. intros _. cbn [fst] in E. destruct (m_node m'); [injection E as -> _; reflexivity|discriminate]. }
  destruct X as (m' & w' & Es & X). destruct (Sync_end _ _ _ _ _ _ _ Hs Hf Hg Hb Hl Es) as (k & n1' & fuel & rf & v & v' & N & B & H1 & H2 & H3 & H5).
  specialize (X B). rewrite X in N. injection N as <-. exists k, fuel, rf, v, v'.
  assert (S := Sync_spec split Hs (written n (zlen c) b) w n c b eq_refl Hf eq_refl ltac:(lia) ltac:(cbn; lia) ltac:(cbn; lia) (fun _ => Hg)). rewrite Es in S. destruct S as (n' & E' & S1 & _ & _ & _ & S5 & _). rewrite E' in X. cbn [m_node] in X. injection X as ->. cbn [written m_start] in S1.
  repeat (split; [assumption|]). split; [|exact (S5 Hg)]. rewrite put_ow, ow_past in S1 by lia. replace (zlen c - zlen c) with 0 in S1 by lia. exact S1.
Qed.

Lemma round_write split wbsize b n c w1 w2 n1 n2 s1 s2 : chunker_ok split -> file_content n c -> growable K n -> b <> [] -> zlen c + zlen b < 9223372036854775808 ->
  write_back split wbsize b (zlen c) n w1 = (Ok n1, s1) -> truncate_to split (zlen c) n1 w2 = (Ok n2, s2) ->
  file_content n2 c /\ growable K n2 /\ blanks n + 1 <= blanks n2.
Proof.
  intros Hs Hf Hg Hb Hl E1 E2. pose proof (zlen_nonneg c) as H0. assert (Hbp : 0 < zlen b) by (destruct b; [contradiction|]; rewrite zlen_cons; pose proof (zlen_nonneg b0); lia).
  destruct (write_end_inv _ _ _ _ _ _ _ _ Hs Hf Hg Hb Hl E1) as (k & fuel & rf & v & v' & Sh & Hk & Gk & Ea & Hf1 & G1).
  assert (Hz : zlen (c ++ b) = zlen c + zlen b) by apply zlen_app.
  pose proof (truncate_to_spec split (zlen c) n1 (c ++ b) w2 Hf1 ltac:(lia) ltac:(lia) ltac:(intros X; lia)) as T2. rewrite E2 in T2. destruct s2 as [m2 v2]. destruct T2 as (Hf2 & _ & _ & _ & _ & G2). specialize (G2 G1).
  split; [unfold resize in Hf2; rewrite pad_small in Hf2 by lia; rewrite ztake_app_l, ztake_all in Hf2 by (unfold bytes in *; lia); exact Hf2|]. split; [exact G2|]. rewrite (shape_blanks _ _ Sh).
  destruct Hk as (cs & Hcs & Ec). destruct Hf1 as (cs1 & Hcs1 & Ec1).
  destruct (append_lx K _ _ _ _ _ _ _ _ _ _ _ _ (eq_refl : pr_maxlinks (grow_params n) = K) Hcs Gk Ea) as (E & HE). rewrite <- (proj2 (lo_deep _ _ _ Gk)), <- (proj2 (lo_deep _ _ _ G1)) in HE.
  assert (Z1 : zlen (concat cs1) = zlen c + zlen b) by (now rewrite <- Ec1). destruct (truncate_to_inv split (zlen c) n1 cs1 w2 n2 (m2, v2) Hcs1 ltac:(lia) ltac:(lia) E2) as (w3 & E3).
  destruct (trunc_leaves n1 cs1 (weight n1) (zlen c) w2 n2 w3 Hcs1 ltac:(lia) ltac:(lia) E3) as (_ & L1 & x & L2 & x' & X1 & X2 & X3 & X4).
  refine (round_leaves k n1 n2 (zlen c) L1 x L2 x' E HE _ X1 X2 X3 X4). rewrite (tot_leaves _ _ Hcs). now rewrite Ec.
Qed.

Lemma leak : forall split n c k n', chunker_ok split -> file_content n c -> growable K n -> rounds split (zlen c) k n n' -> file_content n' c /\ blanks n + Z.of_nat k <= blanks n'.
Proof.
  intros split n c k n' Hs Hf Hg H. remember (zlen c) as size eqn:Es. revert Hf Hg. induction H as [n|k n d n1 n2 n' w1 w2 s1 s2 Hd E1 E2 _ IH|k n wb b n1 n2 n' w1 w2 s1 s2 Hb Hl E1 E2 _ IH]; intros Hf Hg; [split; [exact Hf|lia]| |]; subst size.
  - destruct (round _ _ _ _ _ _ _ _ _ _ Hf Hg Hd E1 E2) as (F2 & G2 & B). destruct (IH F2 G2) as (F' & B'). split; [exact F'|]. lia.
  - destruct (round_write _ _ _ _ _ _ _ _ _ _ _ Hs Hf Hg Hb Hl E1 E2) as (F2 & G2 & B). destruct (IH F2 G2) as (F' & B'). split; [exact F'|]. lia.
Qed.
Lemma leak_differs : forall split n c k n', chunker_ok split -> file_content n c -> growable K n -> rounds split (zlen c) (S k) n n' -> n' <> n.
Proof. intros split n c k n' Hs Hf Hg H ->. destruct (leak _ _ _ _ _ Hs Hf Hg H) as (_ & B). lia. Qed.

(** ** Cases *)

Lemma two_rounds n size d : size < d < 9223372036854775808 -> is_ok (truncate_to bytewise d n full) && is_ok (truncate_to bytewise size (cut_to d n) full) && is_ok (truncate_to bytewise d (cut_to size (cut_to d n)) full) && is_ok (truncate_to bytewise size (cut_to d (cut_to size (cut_to d n))) full) = true ->
  rounds bytewise size 2 n (cut_to size (cut_to d (cut_to size (cut_to d n)))).
Proof.
  intros Hd H. apply andb_prop in H as (H & H4). apply andb_prop in H as (H & H3). apply andb_prop in H as (H1 & H2).
  destruct (is_ok_ex _ H1) as (s1 & E1), (is_ok_ex _ H2) as (s2 & E2), (is_ok_ex _ H3) as (s3 & E3), (is_ok_ex _ H4) as (s4 & E4).
  eapply one_round; [exact Hd|exact E1|exact E2|]. eapply one_round; [exact Hd|exact E3|exact E4|]. apply no_round.
Qed.
Definition wr (size : Z) (b : bytes) (n : node) : node := ok_node (fst (write_back bytewise 1 b size n full)).
Lemma a_write_round n size b : b <> [] -> size + zlen b < 9223372036854775808 -> is_ok (write_back bytewise 1 b size n full) && is_ok (truncate_to bytewise size (wr size b n) full) = true -> rounds bytewise size 1 n (cut_to size (wr size b n)).
Proof.
  intros Hb Hl H. apply andb_prop in H as (H1 & H2). destruct (is_ok_ex _ H1) as (s1 & E1), (is_ok_ex _ H2) as (s2 & E2). eapply write_round; [exact Hb|exact Hl|exact E1|exact E2|]. apply no_round.
Qed.
Lemma root_growable n : match n with NProto _ b ls => match FSNodeFromBytes b with Ok f => (getType f =? TFile) && (zlen (getData f) =? 0) && (zlen ls <=? K) | _ => false end | _ => false end = true -> growable K n.
Proof.
  destruct n as [|p b ls]; [discriminate|]. destruct (FSNodeFromBytes b) as [f| | |] eqn:E; try discriminate. intros H. apply andb_prop in H as (H & H3). apply andb_prop in H as (H1 & H2).
  apply (few_links_growable p b ls f E); [now apply Z.eqb_eq|destruct (getData f); [reflexivity|]; rewrite zlen_cons in H2; pose proof (zlen_nonneg b1); lia|lia].
Qed.
