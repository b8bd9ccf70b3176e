(** The result of an import or an append does not depend on the store. *)
From Verif Require Import Base Pb FSNode Dag Builder Balanced Trickle Importer SpecFile DagProofs BuilderProofs ImportProofs.

(** States that differ in the store only. *)
Definition ad (d1 d2 : db) : Prop := exists w, d2 = db_set_w w d1.
Definition af (s1 s2 : fsn * db) : Prop := fst s1 = fst s2 /\ ad (snd s1) (snd s2).
Lemma af_mk n d1 d2 : ad d1 d2 -> af (n, d1) (n, d2).
Proof. intros H. split; [reflexivity|exact H]. Qed.
Lemma ad_refl w1 w2 d : ad (db_set_w w1 d) (db_set_w w2 d).
Proof. exists w2. reflexivity. Qed.
Lemma ad_same d : ad d d.
Proof. exists (db_w d). now destruct d. Qed.
Lemma ad_prepare d1 d2 : ad d1 d2 -> ad (prepareNext d1) (prepareNext d2).
Proof. intros (w & ->). exists w. destruct d1 as [[|[b|e] r] [n|] [x|] ? ? ? ? ? ?]; reflexivity. Qed.
Lemma ad_fields d1 d2 : ad d1 d2 -> db_spl d1 = db_spl d2 /\ db_next d1 = db_next d2 /\ db_err d1 = db_err d2 /\ db_raw d1 = db_raw d2 /\ db_maxlinks d1 = db_maxlinks d2 /\
  db_builder d1 = db_builder d2 /\ db_fs d1 = db_fs d2 /\ db_offset d1 = db_offset d2.
Proof. intros (w & ->). repeat split. Qed.

(** If both programs succeed, they have the same result. *)
Definition det {S A} (R : S -> S -> Prop) (m1 m2 : M S A) : Prop :=
  forall s1 s2 a1 a2 s1' s2', R s1 s2 -> m1 s1 = (Ok a1, s1') -> m2 s2 = (Ok a2, s2') -> a1 = a2 /\ R s1' s2'.
Lemma det_ret {S A} R (a : A) : det (S := S) R (ret a) (ret a).
Proof. intros s1 s2 a1 a2 s1' s2' H E1 E2. injection E1 as <- <-. injection E2 as <- <-. auto. Qed.
Lemma det_lift {S A} R (r : res A) : det (S := S) R (lift r) (lift r).
Proof. intros s1 s2 a1 a2 s1' s2' H E1 E2. unfold lift in *. destruct r; try discriminate. injection E1 as <- <-. injection E2 as <- <-. auto. Qed.
Lemma det_fuel_l {S A} R (m : M S A) : det (S := S) R (lift Fuel) m.
Proof. intros s1 s2 a1 a2 s1' s2' H E1 E2. discriminate. Qed.
Lemma det_fuel_r {S A} R (m : M S A) : det (S := S) R m (lift Fuel).
Proof. intros s1 s2 a1 a2 s1' s2' H E1 E2. discriminate. Qed.
Lemma det_bind {S A B} R (m1 m2 : M S A) (f1 f2 : A -> M S B) : det R m1 m2 -> (forall a, det R (f1 a) (f2 a)) -> det R (bind m1 f1) (bind m2 f2).
Proof.
  intros Hm Hf s1 s2 b1 b2 s1' s2' H E1 E2. unfold bind in *. destruct (m1 s1) as [[a1| | |] t1] eqn:E3; try discriminate. destruct (m2 s2) as [[a2| | |] t2] eqn:E4; try discriminate.
  destruct (Hm _ _ _ _ _ _ H E3 E4) as (<- & H'). eapply Hf; eassumption.
Qed.
Lemma det_on_db {A} (m1 m2 : M db A) : det ad m1 m2 -> det af (on_db m1) (on_db m2).
Proof.
  intros Hm (n1 & d1) (n2 & d2) a1 a2 s1' s2' (Hn & Hd) E1 E2. unfold on_db in *. cbn [fst snd] in *. destruct (m1 d1) as [r1 e1] eqn:E3, (m2 d2) as [r2 e2] eqn:E4.
  injection E1 as -> <-. injection E2 as -> <-. destruct (Hm _ _ _ _ _ _ Hd E3 E4) as (<- & H). split; [reflexivity|]. split; assumption.
Qed.
Lemma det_with_new n (m1 m2 : M (fsn * db) unit) : det af m1 m2 -> det ad (with_new n m1) (with_new n m2).
Proof.
  intros Hm d1 d2 a1 a2 s1' s2' Hd E1 E2. unfold with_new in *. destruct (m1 (n, d1)) as [[[]| | |] [n1 e1]] eqn:E3; try discriminate. destruct (m2 (n, d2)) as [[[]| | |] [n2 e2]] eqn:E4; try discriminate.
  injection E1 as <- <-. injection E2 as <- <-. destruct (Hm _ _ _ _ _ _ (af_mk _ _ _ Hd) E3 E4) as (_ & Hn & H). cbn [fst snd] in *. subst n2. auto.
Qed.
Lemma det_db {A} (f1 f2 : option prefix -> M db A) : (forall p, det ad (f1 p) (f2 p)) -> det ad (fun b => f1 (db_builder b) b) (fun b => f2 (db_builder b) b).
Proof. intros H d1 d2 a1 a2 s1' s2' Hd E1 E2. pose proof (ad_fields _ _ Hd) as (_ & _ & _ & _ & _ & E & _). rewrite <- E in E2. eapply H; eassumption. Qed.

Lemma det_Done : det ad Done Done.
Proof.
  intros d1 d2 a1 a2 s1' s2' H E1 E2. apply ad_prepare in H. pose proof (ad_fields _ _ H) as (_ & En & Ee & _). unfold Done in *. rewrite <- Ee, <- En in E2.
  destruct (db_err (prepareNext d1)); injection E1 as <- <-; injection E2 as <- <-; auto.
Qed.
Lemma det_Next : det ad Next Next.
Proof.
  intros d1 d2 a1 a2 s1' s2' H E1 E2. apply ad_prepare in H. pose proof (ad_fields _ _ H) as (Es & En & Ee & _). unfold Next in *. cbn [db_err db_set_input] in *. rewrite <- Ee, <- En in E2.
  destruct (db_err (prepareNext d1)); try discriminate. injection E1 as <- <-. injection E2 as <- <-. split; [reflexivity|]. destruct H as (w & ->). exists w. reflexivity.
Qed.
Lemma det_Add x : det ad (Add x) (Add x).
Proof.
  intros d1 d2 a1 a2 s1' s2' (w & ->) E1 E2. unfold Add in *. destruct (dserv_add _ _ (db_w d1)) as [r1 w1], (dserv_add _ _ _) as [r2 w2].
  injection E1 as -> <-. injection E2 as -> <-. destruct a1, a2. split; [reflexivity|]. exists w2. reflexivity.
Qed.
Lemma det_AddChild x z : det af (AddChild x z) (AddChild x z).
Proof.
  intros (n1 & d1) (n2 & d2) a1 a2 s1' s2' (Hn & Hd) E1 E2. cbn [fst snd] in *. subst n2. unfold AddChild in *. destruct (Add x d1) as [r1 e1] eqn:E3, (Add x d2) as [r2 e2] eqn:E4.
  injection E1 as -> <-. injection E2 as -> <-. destruct (det_Add _ _ _ _ _ _ _ Hd E3 E4) as (<- & H). split; [reflexivity|]. split; [reflexivity|exact H].
Qed.
Lemma det_leaf data t : det ad (fun d => (NewLeafNode data t d, d)) (fun d => (NewLeafNode data t d, d)).
Proof.
  intros d1 d2 a1 a2 s1' s2' H E1 E2. assert (E : NewLeafNode data t d2 = NewLeafNode data t d1) by (destruct H as (w & ->); reflexivity). rewrite E in E2.
  injection E1 as E1 <-. injection E2 as E2 <-. split; [congruence|exact H].
Qed.
Lemma det_store n z : det ad (ProcessFileStore n z) (ProcessFileStore n z).
Proof.
  intros d1 d2 a1 a2 s1' s2' (w & ->) E1 E2. unfold ProcessFileStore in *. cbn [db_fs db_set_w db_offset] in *.
  destruct (db_fs d1), n; injection E1 as <- <-; injection E2 as <- <-; (split; [reflexivity|]); exists w; reflexivity.
Qed.
Lemma det_leaf_data t : det ad (NewLeafDataNode t) (NewLeafDataNode t).
Proof.
  unfold NewLeafDataNode. apply det_bind; [apply det_Next|]. intros data. apply det_bind; [apply det_leaf|]. intros n. apply det_bind; [apply det_store|]. intros x. apply det_ret.
Qed.
Lemma det_commit : det af commit commit.
Proof.
  intros (n1 & d1) (n2 & d2) a1 a2 s1' s2' (Hn & Hd) E1 E2. cbn [fst snd] in *. subst n2. unfold commit in *. cbn [fst snd] in *.
  destruct (Commit n1); try discriminate. injection E1 as <- <-. injection E2 as <- <-. split; [reflexivity|]. split; [reflexivity|exact Hd].
Qed.
Lemma det_if {S A} R (c : bool) (m1 m2 n1 n2 : M S A) : det R m1 m2 -> det R n1 n2 -> det R (if c then m1 else n1) (if c then m2 else n2).
Proof. destruct c; auto. Qed.
Lemma det_fill mk1 mk2 : det ad mk1 mk2 -> forall f1 f2, det af (fill_loop mk1 f1) (fill_loop mk2 f2).
Proof.
  intros Hm. induction f1 as [|f1 IH]; intros f2 s1 s2 a1 a2 s1' s2' H E1 E2.
  - destruct f2; cbn [fill_loop] in *; rewrite <- (proj1 H), <- (proj1 (proj2 (proj2 (proj2 (proj2 (ad_fields _ _ (proj2 H))))))) in E2;
      (destruct (_ <? _); [|injection E1 as <- <-; injection E2 as <- <-; auto]);
      (eapply det_bind; [apply det_on_db, det_Done| |exact H|exact E1|exact E2]); intros dn; (apply det_if; [apply det_ret|]);
      (apply det_bind; [apply det_on_db, Hm|]); intros c; (apply det_bind; [apply det_AddChild|]); intros _; apply det_fuel_l.
  - destruct f2; cbn [fill_loop] in *; rewrite <- (proj1 H), <- (proj1 (proj2 (proj2 (proj2 (proj2 (ad_fields _ _ (proj2 H))))))) in E2;
      (destruct (_ <? _); [|injection E1 as <- <-; injection E2 as <- <-; auto]);
      (eapply det_bind; [apply det_on_db, det_Done| |exact H|exact E1|exact E2]); intros dn; (apply det_if; [apply det_ret|]);
      (apply det_bind; [apply det_on_db, Hm|]); intros c; (apply det_bind; [apply det_AddChild|]); intros _; [apply det_fuel_r|apply IH].
Qed.
Lemma det_fill_room mk1 mk2 (k1 k2 : M (fsn * db) unit) : det ad mk1 mk2 -> det af k1 k2 -> det af (fun s => (do _ <- fill_loop mk1 (room s) ;; k1) s) (fun s => (do _ <- fill_loop mk2 (room s) ;; k2) s).
Proof.
  intros Hm Hk s1 s2 a1 a2 s1' s2' H E1 E2. eapply det_bind; [apply det_fill, Hm|intros []; exact Hk|exact H|exact E1|exact E2].
Qed.
Lemma det_layer : det af FillNodeLayer FillNodeLayer.
Proof. apply det_fill_room; [apply det_leaf_data|apply det_commit]. Qed.

(** ** The balanced layout *)

Lemma det_fillNodeRec depth : det af (fillNodeRec depth) (fillNodeRec depth).
Proof.
  induction depth as [|d IH]; [intros s1 s2 a1 a2 s1' s2' _ E; discriminate|]. cbn [fillNodeRec]. apply det_fill_room; [|apply det_commit].
  destruct d as [|d']; [apply det_leaf_data|]. apply (det_db (fun p => with_new (NewFSNodeOverDag p TFile) (fillNodeRec (S d'))) (fun p => with_new (NewFSNodeOverDag p TFile) (fillNodeRec (S d')))).
  intros p. apply det_with_new, IH.
Qed.
Lemma det_layout_loop : forall f1 f2 depth root z, det ad (layout_loop f1 depth root z) (layout_loop f2 depth root z).
Proof.
  induction f1 as [|f1 IH]; intros f2 depth root z.
  - destruct f2; cbn [layout_loop]; (apply det_bind; [apply det_Done|]); intros dn; (apply det_if; [apply det_ret|]); apply det_fuel_l.
  - destruct f2; cbn [layout_loop]; (apply det_bind; [apply det_Done|]); intros dn; (apply det_if; [apply det_ret|]); [apply det_fuel_r|].
    apply det_bind; [|intros r; apply IH].
    apply (det_db (fun p => with_new (NewFSNodeOverDag p TFile) (do _ <- AddChild root z ;; fillNodeRec depth)) (fun p => with_new (NewFSNodeOverDag p TFile) (do _ <- AddChild root z ;; fillNodeRec depth))).
    intros p. apply det_with_new. apply det_bind; [apply det_AddChild|intros _; apply det_fillNodeRec].
Qed.
Lemma det_balanced f1 f2 : det ad (Balanced.Layout f1) (Balanced.Layout f2).
Proof.
  unfold Balanced.Layout. apply det_bind; [apply det_Done|]. intros dn. apply det_if.
  - apply det_bind; [apply det_leaf|]. intros n. apply det_bind; [apply det_Add|]. intros _. apply det_ret.
  - apply det_bind; [apply det_leaf_data|]. intros r. apply det_bind; [apply det_layout_loop|]. intros root. apply det_bind; [apply det_Add|]. intros _. apply det_ret.
Qed.

(** ** The trickle layout *)

Lemma det_add_children mk1 mk2 : det ad mk1 mk2 -> forall k, det af (add_children mk1 k) (add_children mk2 k).
Proof.
  intros Hm. induction k as [|k IH]; cbn [add_children]; [apply det_ret|]. apply det_bind; [apply det_on_db, det_Done|]. intros dn. apply det_if; [apply det_ret|].
  apply det_bind; [apply det_on_db, Hm|]. intros c. apply det_bind; [apply det_AddChild|]. intros _. apply IH.
Qed.
Lemma det_depth_loop fill1 fill2 : (forall d, det ad (fill1 d) (fill2 d)) -> forall f1 f2 depth max, det af (depth_loop fill1 f1 depth max) (depth_loop fill2 f2 depth max).
Proof.
  intros Hm. induction f1 as [|f1 IH]; intros f2 depth max.
  - destruct f2; cbn [depth_loop]; (apply det_if; [|apply det_ret]); (apply det_bind; [apply det_on_db, det_Done|]); intros dn; (apply det_if; [apply det_ret|]);
      (apply det_bind; [apply det_add_children, Hm|]); intros _; apply det_fuel_l.
  - destruct f2; cbn [depth_loop]; (apply det_if; [|apply det_ret]); (apply det_bind; [apply det_on_db, det_Done|]); intros dn; (apply det_if; [apply det_ret|]);
      (apply det_bind; [apply det_add_children, Hm|]); intros _; [apply det_fuel_r|apply IH].
Qed.
Lemma det_trickle_rec : forall f1 f2 max, det af (fillTrickleRec f1 max) (fillTrickleRec f2 max).
Proof.
  induction f1 as [|f1 IH]; intros f2 max; [apply det_fuel_l|]. destruct f2 as [|f2]; [apply det_fuel_r|]. cbn [fillTrickleRec].
  apply det_bind; [apply det_layer|]. intros _. apply det_bind; [|intros _; apply det_commit]. apply det_depth_loop. intros d.
  apply (det_db (fun p => with_new (NewFSNodeOverDag p TFile) (fillTrickleRec f1 d)) (fun p => with_new (NewFSNodeOverDag p TFile) (fillTrickleRec f2 d))). intros p. apply det_with_new, IH.
Qed.
Lemma det_subtree f1 f2 d : det ad (new_subtree f1 d) (new_subtree f2 d).
Proof.
  apply (det_db (fun p => with_new (NewFSNodeOverDag p TFile) (fillTrickleRec f1 d)) (fun p => with_new (NewFSNodeOverDag p TFile) (fillTrickleRec f2 d))). intros p.
  apply det_with_new, det_trickle_rec.
Qed.
Lemma det_trickle f1 f2 : det ad (Trickle.Layout f1) (Trickle.Layout f2).
Proof.
  unfold Trickle.Layout. apply det_bind; [apply det_subtree|]. intros r. apply det_bind; [apply det_Add|]. intros _. apply det_ret.
Qed.

(** ** Append *)

Lemma det_get_fsn : det af get_fsn get_fsn.
Proof. intros s1 s2 a1 a2 s1' s2' H E1 E2. injection E1 as <- <-. injection E2 as <- <-. split; [apply H|exact H]. Qed.
Lemma det_set_fsn n : det af (set_fsn n) (set_fsn n).
Proof. intros s1 s2 a1 a2 s1' s2' H E1 E2. injection E1 as <- <-. injection E2 as <- <-. split; [reflexivity|]. split; [reflexivity|apply H]. Qed.
(** What is read from the helper: everything but the store. *)
Lemma det_get_db {A} (f1 f2 : db -> M (fsn * db) A) : (forall d1 d2, ad d1 d2 -> det af (f1 d1) (f2 d2)) -> det af (do b <- get_db ;; f1 b) (do b <- get_db ;; f2 b).
Proof. intros H s1 s2 a1 a2 s1' s2' Hs E1 E2. eapply (H (snd s1) (snd s2)); [apply Hs|exact Hs|exact E1|exact E2]. Qed.
Lemma det_on_fsn n m1 m2 : det af m1 m2 -> det af (on_fsn n m1) (on_fsn n m2).
Proof.
  intros Hm (n1 & d1) (n2 & d2) a1 a2 s1' s2' (Hn & Hd) E1 E2. cbn [fst snd] in *. subst n2. unfold on_fsn in *. cbn [fst snd] in *.
  destruct (m1 (n, d1)) as [[[]| | |] [k1 e1]] eqn:E3; try discriminate. destruct (m2 (n, d2)) as [[[]| | |] [k2 e2]] eqn:E4; try discriminate.
  destruct (Hm _ _ _ _ _ _ (af_mk _ _ _ Hd) E3 E4) as (_ & Hk & H). cbn [fst snd] in *. subst k2. injection E1 as <- <-. injection E2 as <- <-. split; [reflexivity|]. split; [reflexivity|exact H].
Qed.
Lemma det_GetChild i n w1 w2 : det af (lift (GetChild i n w1)) (lift (GetChild i n w2)).
Proof.
  intros s1 s2 a1 a2 s1' s2' H E1 E2. unfold lift, GetChild in *. destruct (i <? 0); [discriminate|]. destruct (nth_error _ _) as [l|]; [|discriminate].
  unfold dserv_get in *. destruct (stored w1 (lto l) && w_getok w1 (lto l)), (stored w2 (lto l) && w_getok w2 (lto l)); try discriminate. cbn [rbind] in *. injection E1 as E1 <-. injection E2 as E2 <-.
  split; [congruence|exact H].
Qed.
Lemma det_fill_last f1 f2 rec1 rec2 depth rn : (forall d, det af (rec1 d) (rec2 d)) -> det af (appendFillLastChild f1 rec1 depth rn) (appendFillLastChild f2 rec2 depth rn).
Proof.
  intros Hr. unfold appendFillLastChild. apply det_bind; [apply det_get_fsn|]. intros n. apply det_get_db. intros d1 d2 Hd.
  pose proof (ad_fields _ _ Hd) as (_ & _ & _ & _ & E & _). rewrite <- E. apply det_if; [apply det_ret|]. cbv zeta.
  apply det_bind; [apply det_GetChild|]. intros lc. apply det_bind; [apply det_on_fsn, Hr|]. intros nc. apply det_bind; [apply det_lift|]. intros n1.
  apply det_bind; [apply det_set_fsn|]. intros _. apply det_bind; [apply det_lift|]. intros fl. apply det_bind; [apply det_AddChild|]. intros _.
  apply det_if; [apply det_ret|]. apply det_add_children, det_subtree.
Qed.
Lemma det_appendRec f1 f2 : forall r1 r2 max, det af (appendRec f1 r1 max) (appendRec f2 r2 max).
Proof.
  induction r1 as [|r1 IH]; intros r2 max; cbn [appendRec].
  - destruct r2; cbn [appendRec]; (apply det_if; [apply det_ret|]); (apply det_bind; [apply det_on_db, det_Done|]); intros dn; (apply det_if; [apply det_ret|apply det_fuel_l]).
  - destruct r2; cbn [appendRec]; (apply det_if; [apply det_ret|]); (apply det_bind; [apply det_on_db, det_Done|]); intros dn; (apply det_if; [apply det_ret|]); [apply det_fuel_r|].
    apply det_bind; [apply det_get_fsn|]. intros n. apply det_get_db. intros d1 d2 Hd. pose proof (ad_fields _ _ Hd) as (_ & _ & _ & _ & E & _). rewrite <- E.
    destruct (trickleDepthInfo n (db_maxlinks d1)) as [depth0 rn]. apply det_bind; [apply det_if; [apply det_bind; [apply det_layer|intros _; apply det_ret]|apply det_ret]|].
    intros depth. apply det_if; [apply det_ret|]. apply det_bind; [apply det_fill_last; intros d; apply IH|]. intros _. apply det_bind; [apply det_on_db, det_Done|]. intros d2'. cbv zeta.
    apply det_if; [|apply det_ret]. apply det_depth_loop. intros d. apply det_subtree.
Qed.
Lemma det_append_body f1 f2 r1 r2 : det af (append_body f1 r1) (append_body f2 r2).
Proof.
  unfold append_body. apply det_bind; [apply det_get_fsn|]. intros n. apply det_get_db. intros d1 d2 Hd. pose proof (ad_fields _ _ Hd) as (_ & _ & _ & _ & E & _). rewrite <- E.
  destruct (trickleDepthInfo n (db_maxlinks d1)) as [depth0 rn]. apply det_bind.
  { apply det_if; [|apply det_ret]. apply det_bind; [apply det_layer|]. intros _. apply det_bind; [apply det_on_db, det_Done|]. intros d'. apply det_ret. }
  intros [depth|]; [|apply det_ret]. apply det_bind; [apply det_fill_last; intros d; apply det_appendRec|]. intros _. apply det_bind; [apply det_on_db, det_Done|]. intros d'. cbv zeta.
  apply det_bind; [apply det_depth_loop; intros d; apply det_subtree|]. intros _. apply det_commit.
Qed.

(** ** The results *)

Lemma build_det l1 l2 dbp f1 f2 spl w1 w2 r1 r2 w1' w2' : det ad l1 l2 ->
  build l1 dbp f1 spl w1 = (Ok r1, w1') -> build l2 dbp f2 spl w2 = (Ok r2, w2') -> r1 = r2.
Proof.
  intros H E1 E2. unfold build, New in *. destruct (pr_nocopy dbp && negb f1) eqn:N1; [discriminate|]. destruct (pr_nocopy dbp && negb f2) eqn:N2; [discriminate|].
  assert (E : pr_nocopy dbp && f1 = pr_nocopy dbp && f2) by (destruct (pr_nocopy dbp), f1, f2; cbn in *; congruence). rewrite <- E in E2.
  destruct (l1 _) as [a1 d1] eqn:L1 in E1. destruct (l2 _) as [a2 d2] eqn:L2 in E2. injection E1 as -> _. injection E2 as -> _.
  eapply (proj1 (H _ _ _ _ _ _ (ex_intro _ w2 eq_refl) L1 L2)).
Qed.
Lemma balanced_det : forall f1 f2 dbp i1 i2 spl w1 w2 r1 r2 w1' w2',
  balanced_import f1 dbp i1 spl w1 = (Ok r1, w1') -> balanced_import f2 dbp i2 spl w2 = (Ok r2, w2') -> r1 = r2.
Proof. intros f1 f2 dbp i1 i2 spl w1 w2 r1 r2 w1' w2'. apply build_det, det_balanced. Qed.
Lemma trickle_det : forall f1 f2 dbp i1 i2 spl w1 w2 r1 r2 w1' w2',
  trickle_import f1 dbp i1 spl w1 = (Ok r1, w1') -> trickle_import f2 dbp i2 spl w2 = (Ok r2, w2') -> r1 = r2.
Proof. intros f1 f2 dbp i1 i2 spl w1 w2 r1 r2 w1' w2'. apply build_det, det_trickle. Qed.
Lemma append_det : forall f1 f2 g1 g2 dbp i1 i2 spl base w1 w2 r1 r2 b1 b2 w1' w2',
  trickle_append f1 g1 dbp i1 spl base w1 = (Ok r1, b1, w1') -> trickle_append f2 g2 dbp i2 spl base w2 = (Ok r2, b2, w2') -> r1 = r2.
Proof.
  intros f1 f2 g1 g2 dbp i1 i2 spl base w1 w2 r1 r2 b1 b2 w1' w2' E1 E2. unfold trickle_append, New in *.
  destruct (pr_nocopy dbp && negb i1) eqn:N1; [discriminate|]. destruct (pr_nocopy dbp && negb i2) eqn:N2; [discriminate|].
  assert (E : pr_nocopy dbp && i1 = pr_nocopy dbp && i2) by (destruct (pr_nocopy dbp), i1, i2; cbn in *; congruence). rewrite <- E in E2.
  destruct base as [p d|p b ls]; cbn [Append] in *; [discriminate|]. unfold Append in *. destruct (NewFSNFromDag p b ls) as [n| | |]; try discriminate.
  destruct (append_body f1 g1 _) as [[[]| | |] [n1 d1]] eqn:L1 in E1; try discriminate. destruct (append_body f2 g2 _) as [[[]| | |] [n2 d2]] eqn:L2 in E2; try discriminate.
  injection E1 as <- _ _. injection E2 as <- _ _.
  destruct (det_append_body f1 f2 g1 g2 _ _ _ _ _ _ (af_mk _ _ _ (ex_intro _ w2 eq_refl)) L1 L2) as (_ & Hn & _). cbn [fst] in Hn. now rewrite Hn.
Qed.

(** A DAG has the chunks of one file only. *)
Lemma file_dag_fun : forall n cs cs', file_dag n cs -> file_dag n cs' -> cs = cs'.
Proof.
  induction n as [p d|p b ls IH] using node_ind'; intros cs cs' H1 H2.
  - inversion H1; subst. now inversion H2.
  - inversion H1 as [|? ? fs E|? ? fs ? css Hn _ E _ _ Hf _ _]; subst; inversion H2 as [|? ? fs' E'|? ? fs' ? css' Hn' _ E' _ _ Hf' _ _]; subst; try congruence.
    f_equal. clear H1 H2 E E' Hn Hn'. revert css css' Hf Hf'. induction IH as [|l r Hl _ IHr]; cbn [map]; intros css css' Hf Hf'; inversion Hf; subst; inversion Hf'; subst; [reflexivity|].
    f_equal; [eapply Hl; eassumption|]. apply IHr; assumption.
Qed.

(** [root] is the result of importing these chunks. *)
Definition imports (chunks : list bytes) (root : node) : Prop :=
  (exists fuel dbp fi w w', balanced_import fuel dbp fi (map EvData chunks) w = (Ok root, w')) \/
  (exists fuel dbp fi w w', 1 <= pr_maxlinks dbp /\ (length chunks < fuel)%nat /\ trickle_import fuel dbp fi (map EvData chunks) w = (Ok root, w')).
Lemma EvData_inj c1 c2 : map EvData c1 = map EvData c2 -> c1 = c2.
Proof. revert c2. induction c1 as [|x r IH]; intros [|y c2] H; cbn in H; try discriminate; [reflexivity|]. injection H as <- H. f_equal. auto. Qed.
Lemma imports_dag chunks root : imports chunks root -> exists cs, file_dag root cs /\ (chunks = [] /\ cs = [[]] \/ cs = chunks).
Proof.
  intros [(fuel & dbp & fi & w & w' & H)|(fuel & dbp & fi & w & w' & Hk & Hf & H)].
  - destruct (balanced_facts _ _ _ _ _ _ _ H) as ((ch & cs & added & E & H1 & H2 & _) & _). apply EvData_inj in E as <-. eauto.
  - rewrite <- (map_length EvData chunks) in Hf. destruct (trickle_facts fuel dbp fi _ w root w' Hk Hf H) as ((ch & cs & added & E & H1 & H2 & _) & _). apply EvData_inj in E as <-. eauto.
Qed.
Lemma import_injective : forall c1 c2 root, imports c1 root -> imports c2 root -> c1 = c2 \/ (concat c1 = [] /\ concat c2 = []).
Proof.
  intros c1 c2 root H1 H2. apply imports_dag in H1 as (cs1 & F1 & H1). apply imports_dag in H2 as (cs2 & F2 & H2). pose proof (file_dag_fun _ _ _ F1 F2) as E.
  destruct H1 as [(-> & ->)|<-], H2 as [(-> & ->)|<-]; subst; auto.
Qed.
