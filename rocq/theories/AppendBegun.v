(** Appending to a file whose sub-graphs of depth one are begun and not the last. *)
From Verif Require Import Base Pb PbProofs FSNode FSNodeProofs Dag DagProofs Builder Trickle Importer
  SpecFile SpecStore BuilderProofs ImportProofs AppendProofs AppendRun DirBasic AppendSame.

(** ** Runs from states that differ in the store, the filestore offset and uncommitted bytes *)

Definition pd (d1 d2 : db) : Prop := pend d1 = pend d2 /\ cfg d1 = cfg d2.
Definition pf (s1 s2 : fsn * db) : Prop := f_prefix (fst s1) = f_prefix (fst s2) /\ f_links (fst s1) = f_links (fst s2) /\ f_file (fst s1) = f_file (fst s2) /\ pd (snd s1) (snd s2).
Definition same_child (c1 c2 : xnode * Z) : Prop := fst (fst c1) = fst (fst c2) /\ snd c1 = snd c2.
Definition rel {S A} (R : S -> S -> Prop) (Q : A -> A -> Prop) (m1 m2 : M S A) : Prop :=
  forall s1 s2 a1 a2 s1' s2', R s1 s2 -> m1 s1 = (Ok a1, s1') -> m2 s2 = (Ok a2, s2') -> Q a1 a2 /\ R s1' s2'.
Lemma rel_ret {S A} R (a : A) : rel (S := S) R eq (ret a) (ret a).
Proof. intros s1 s2 a1 a2 s1' s2' H E1 E2. injection E1 as <- <-. injection E2 as <- <-. auto. Qed.
Lemma rel_fuel_l {S A} R Q (m : M S A) : rel (S := S) R Q (lift Fuel) m.
Proof. intros s1 s2 a1 a2 s1' s2' H E1 E2. discriminate. Qed.
Lemma rel_fuel_r {S A} R Q (m : M S A) : rel (S := S) R Q m (lift Fuel).
Proof. intros s1 s2 a1 a2 s1' s2' H E1 E2. discriminate. Qed.
Lemma rel_bind {S A B} R (Q : A -> A -> Prop) (Q' : B -> B -> Prop) (m1 m2 : M S A) (f1 f2 : A -> M S B) : rel R Q m1 m2 -> (forall a1 a2, Q a1 a2 -> rel R Q' (f1 a1) (f2 a2)) -> rel R Q' (bind m1 f1) (bind m2 f2).
Proof.
  intros Hm Hf s1 s2 b1 b2 s1' s2' H E1 E2. unfold bind in *. destruct (m1 s1) as [[a1| | |] t1] eqn:E3; try discriminate. destruct (m2 s2) as [[a2| | |] t2] eqn:E4; try discriminate.
  destruct (Hm _ _ _ _ _ _ H E3 E4) as (Hq & H'). eapply Hf; eassumption.
Qed.
Lemma rel_if {S A} R Q (c : bool) (m1 m2 n1 n2 : M S A) : rel R Q m1 m2 -> rel R Q n1 n2 -> rel R Q (if c then m1 else n1) (if c then m2 else n2).
Proof. destruct c; auto. Qed.
Lemma rel_on_db {A} Q (m1 m2 : M db A) : rel pd Q m1 m2 -> rel pf Q (on_db m1) (on_db m2).
Proof.
  intros Hm (n1 & d1) (n2 & d2) a1 a2 [n1' d1'] [n2' d2'] (Hp & Hl & Hf & Hd) E1 E2. apply on_db_ok in E1 as (E1 & ->). apply on_db_ok in E2 as (E2 & ->).
  destruct (Hm _ _ _ _ _ _ Hd E1 E2) as (Hq & H). split; [exact Hq|]. repeat split; try assumption; apply H.
Qed.
Lemma rel_Done : rel pd eq Done Done.
Proof.
  intros d1 d2 a1 a2 s1' s2' (Hp & Hc) E1 E2. apply done_ok in E1 as (P1 & C1 & B1). apply done_ok in E2 as (P2 & C2 & B2). rewrite Hp in B1.
  split; [destruct a1, a2; congruence|]. split; congruence.
Qed.
Lemma rel_AddChild c1 c2 : same_child c1 c2 -> rel pf eq (AddChild (fst c1) (snd c1)) (AddChild (fst c2) (snd c2)).
Proof.
  intros (Hx & Hz) (n1 & d1) (n2 & d2) [] [] [n1' d1'] [n2' d2'] (Hp & Hl & Hf & Hd & Hd') E1 E2. apply AddChild_ok in E1 as (-> & P1 & C1). apply AddChild_ok in E2 as (-> & P2 & C2).
  cbn [fst snd f_prefix f_links f_file] in *. split; [reflexivity|]. unfold pf, pd. cbn [fst snd f_prefix f_links f_file]. rewrite Hp, Hl, Hf, Hx, Hz, P1, P2, C1, C2. auto.
Qed.
Lemma rel_commit : rel pf eq commit commit.
Proof.
  intros (n1 & d1) (n2 & d2) [] [] [n1' d1'] [n2' d2'] (Hp & Hl & Hf & Hd) E1 E2. apply commit_inv in E1 as (b1 & _ & -> & ->). apply commit_inv in E2 as (b2 & _ & -> & ->).
  split; [reflexivity|]. repeat split; try assumption; apply Hd.
Qed.
(** After [commit] the nodes are the same. *)
Lemma commit_same s1 s2 s1' s2' : pf s1 s2 -> commit s1 = (Ok tt, s1') -> commit s2 = (Ok tt, s2') -> fst s1' = fst s2' /\ pd (snd s1') (snd s2').
Proof.
  destruct s1 as [n1 d1], s2 as [n2 d2], s1' as [n1' d1'], s2' as [n2' d2']. intros (Hp & Hl & Hf & Hd) E1 E2. cbn [fst snd] in *.
  apply commit_inv in E1 as (b1 & B1 & -> & ->). apply commit_inv in E2 as (b2 & B2 & -> & ->). rewrite Hf in B1. split; [congruence|exact Hd].
Qed.
Lemma cfg_fields d1 d2 : cfg d1 = cfg d2 -> db_raw d1 = db_raw d2 /\ db_maxlinks d1 = db_maxlinks d2 /\ db_builder d1 = db_builder d2 /\ db_fs d1 = db_fs d2.
Proof. unfold cfg. intros H. repeat split; congruence. Qed.
Lemma rel_leaf : forall d1 d2 c1 c2 d1' d2', pd d1 d2 -> pend d1 <> [] -> NewLeafDataNode TRaw d1 = (Ok c1, d1') -> NewLeafDataNode TRaw d2 = (Ok c2, d2') -> same_child c1 c2 /\ pd d1' d2'.
Proof.
  intros d1 d2 [x1 z1] [x2 z2] d1' d2' (Hp & Hc) Hn E1 E2. destruct (cfg d1) as [[[raw k] bu] fs] eqn:Ec.
  destruct (leaf_ok raw k bu fs d1 x1 z1 d1' Ec E1 Hn) as (b1 & P1 & C1 & L1 & _). destruct (leaf_ok raw k bu fs d2 x2 z2 d2' (eq_sym Hc) E2 ltac:(congruence)) as (b2 & P2 & C2 & L2 & _).
  rewrite Hp, P2 in P1. injection P1 as -> P1. rewrite <- L2 in L1. injection L1 as L1 L1'. split; [split; assumption|]. split; congruence.
Qed.
Lemma rel_fill : forall f1 f2, rel pf eq (fill_loop (NewLeafDataNode TRaw) f1) (fill_loop (NewLeafDataNode TRaw) f2).
Proof.
  assert (Step : forall k1 k2 : M (fsn * db) unit, rel pf eq k1 k2 -> forall s1 s2 s1' s2', pf s1 s2 ->
    (if fNumChildren (fst s1) <? db_maxlinks (snd s1) then (do d <- on_db Done ;; if d : bool then ret tt else do c <- on_db (NewLeafDataNode TRaw) ;; do _ <- AddChild (fst c) (snd c) ;; k1) s1 else ret tt s1) = (Ok tt, s1') ->
    (if fNumChildren (fst s2) <? db_maxlinks (snd s2) then (do d <- on_db Done ;; if d : bool then ret tt else do c <- on_db (NewLeafDataNode TRaw) ;; do _ <- AddChild (fst c) (snd c) ;; k2) s2 else ret tt s2) = (Ok tt, s2') ->
    pf s1' s2').
  { intros k1 k2 Hk [n1 d1] [n2 d2] s1' s2' H E1 E2. pose proof H as (Hp & Hl & Hf & Hd & Hc). cbn [fst snd] in *. destruct (cfg_fields _ _ Hc) as (_ & Em & _).
    unfold fNumChildren in *. rewrite Hf, Em in E1. destruct (_ <? _); [|injection E1 as <-; injection E2 as <-; exact H].
    apply bind_ok in E1 as (b1 & [m1 e1] & D1 & E1). apply on_db_ok in D1 as (D1 & ->). apply bind_ok in E2 as (b2 & [m2 e2] & D2 & E2). apply on_db_ok in D2 as (D2 & ->).
    destruct (rel_Done _ _ _ _ _ _ (conj Hd Hc) D1 D2) as (<- & Hde). apply done_ok in D1 as (P1 & _ & B1). destruct b1.
    - injection E1 as <-. injection E2 as <-. repeat split; try assumption; apply Hde.
    - apply bind_ok in E1 as (c1 & [m3 e3] & L1 & E1). apply on_db_ok in L1 as (L1 & ->). apply bind_ok in E2 as (c2 & [m4 e4] & L2 & E2). apply on_db_ok in L2 as (L2 & ->).
      destruct (rel_leaf _ _ _ _ _ _ Hde ltac:(congruence) L1 L2) as (Hs & Hd3).
      apply bind_ok in E1 as ([] & s5 & A1 & E1). apply bind_ok in E2 as ([] & s6 & A2 & E2).
      destruct (rel_AddChild _ _ Hs _ _ _ _ _ _ (conj Hp (conj Hl (conj Hf Hd3)) : pf (n1, e3) (n2, e4)) A1 A2) as (_ & H5).
      now destruct (Hk _ _ _ _ _ _ H5 E1 E2). }
  induction f1 as [|f1 IH]; intros f2 s1 s2 [] [] s1' s2' H E1 E2; (split; [reflexivity|]); destruct f2; cbn [fill_loop] in *;
    (eapply Step; [|exact H|exact E1|exact E2]); first [apply rel_fuel_l|apply rel_fuel_r|apply IH].
Qed.
Lemma rel_layer : rel pf eq FillNodeLayer FillNodeLayer.
Proof.
  intros s1 s2 [] [] s1' s2' H E1 E2. unfold FillNodeLayer in *. apply bind_ok in E1 as ([] & t1 & A1 & E1). apply bind_ok in E2 as ([] & t2 & A2 & E2).
  destruct (rel_fill _ _ _ _ _ _ _ _ H A1 A2) as (_ & H'). exact (rel_commit _ _ _ _ _ _ H' E1 E2).
Qed.
Lemma rel_add_children mk1 mk2 : rel pd same_child mk1 mk2 -> forall k, rel pf eq (add_children mk1 k) (add_children mk2 k).
Proof.
  intros Hm. induction k as [|k IH]; cbn [add_children]; [apply rel_ret|]. eapply rel_bind; [apply rel_on_db, rel_Done|]. intros dn ? <-. apply rel_if; [apply rel_ret|].
  eapply rel_bind; [apply rel_on_db, Hm|]. intros c1 c2 Hc. eapply rel_bind; [apply rel_AddChild, Hc|]. intros ? ? _. apply IH.
Qed.
Lemma rel_depth_loop fill1 fill2 : (forall d, rel pd same_child (fill1 d) (fill2 d)) -> forall f1 f2 depth max, rel pf eq (depth_loop fill1 f1 depth max) (depth_loop fill2 f2 depth max).
Proof.
  intros Hm. induction f1 as [|f1 IH]; intros f2 depth max; destruct f2; cbn [depth_loop]; (apply rel_if; [|apply rel_ret]); (eapply rel_bind; [apply rel_on_db, rel_Done|]); intros dn ? <-;
    (apply rel_if; [apply rel_ret|]); (eapply rel_bind; [apply rel_add_children, Hm|]); intros ? ? _; first [apply rel_fuel_l|apply rel_fuel_r|apply IH].
Qed.
Lemma rel_with_new f1 f2 max : (forall s1 s2 s1' s2', pf s1 s2 -> fillTrickleRec f1 max s1 = (Ok tt, s1') -> fillTrickleRec f2 max s2 = (Ok tt, s2') -> fst s1' = fst s2' /\ pd (snd s1') (snd s2')) ->
  rel pd same_child (new_subtree f1 max) (new_subtree f2 max).
Proof.
  intros H d1 d2 c1 c2 d1' d2' Hd E1 E2. unfold new_subtree, with_new in *. destruct (cfg_fields _ _ (proj2 Hd)) as (_ & _ & Eb & _). rewrite Eb in E1.
  set (n := NewFSNodeOverDag (db_builder d2) TFile) in *.
  destruct (fillTrickleRec f1 max (n, d1)) as [[[]| | |] [n1 e1]] eqn:E3; try discriminate. destruct (fillTrickleRec f2 max (n, d2)) as [[[]| | |] [n2 e2]] eqn:E4; try discriminate.
  destruct (H _ _ _ _ (conj eq_refl (conj eq_refl (conj eq_refl Hd)) : pf (n, d1) (n, d2)) E3 E4) as (Hn & Hd'). cbn [fst snd] in *. subst n2. injection E1 as <- <-. injection E2 as <- <-.
  split; [split; reflexivity|exact Hd'].
Qed.
Lemma rel_rec : forall f1 f2 max s1 s2 s1' s2', pf s1 s2 -> fillTrickleRec f1 max s1 = (Ok tt, s1') -> fillTrickleRec f2 max s2 = (Ok tt, s2') -> fst s1' = fst s2' /\ pd (snd s1') (snd s2').
Proof.
  induction f1 as [|f1 IH]; intros f2 max s1 s2 s1' s2' H E1 E2; [discriminate|]. destruct f2 as [|f2]; [discriminate|]. cbn [fillTrickleRec] in *.
  apply bind_ok in E1 as ([] & t1 & A1 & E1). apply bind_ok in E2 as ([] & t2 & A2 & E2). destruct (rel_layer _ _ _ _ _ _ H A1 A2) as (_ & H1).
  apply bind_ok in E1 as ([] & u1 & B1 & E1). apply bind_ok in E2 as ([] & u2 & B2 & E2).
  assert (H2 : pf u1 u2) by (refine (proj2 (rel_depth_loop _ _ _ _ _ _ _ _ _ _ _ _ _ H1 B1 B2)); intros d; exact (rel_with_new f1 f2 d (IH f2 d))).
  exact (commit_same _ _ _ _ H2 E1 E2).
Qed.
Lemma rel_subtree f1 f2 d : rel pd same_child (new_subtree f1 d) (new_subtree f2 d).
Proof. apply rel_with_new, rel_rec. Qed.

(** ** Sub-graphs of depth one *)

Section begun.
  Variables (raw : bool) (k : Z) (bu : option prefix) (fs : bool).
  Hypothesis Hk : 1 <= k.
  Local Notation c := (raw, k, bu, fs).
  Local Notation lk := (lk raw bu). Local Notation sub := (sub raw bu). Local Notation cl := (cl bu). Local Notation nd := (nd bu).
  Local Notation K := (Z.to_nat k).

  Fixpoint grp (j : nat) (ys : list bytes) : list (list bytes) :=
    match j with O => [] | S j' => match ys with [] => [] | _ => firstn K ys :: grp j' (skipn K ys) end end.
  Fixpoint rst (j : nat) (ys : list bytes) : list bytes := match j with O => ys | S j' => rst j' (skipn K ys) end.
  Lemma grp_nil j : grp j [] = []. Proof. now destruct j. Qed.
  Lemma rst_nil j : rst j [] = []. Proof. induction j; [reflexivity|]. cbn [rst]. now rewrite skipn_nil. Qed.

  Lemma grp_S j ys : ys <> [] -> grp (S j) ys = firstn K ys :: grp j (skipn K ys). Proof. now destruct ys. Qed.
  Lemma rst_S j ys : rst (S j) ys = rst j (skipn K ys). Proof. reflexivity. Qed.

  Lemma layer_firstn L b d n' d' ys : cfg d = c -> FillNodeLayer (cl L b, d) = (Ok tt, (n', d')) -> pend d = map EvData ys -> zlen L <= k ->
    let y1 := firstn (Z.to_nat (k - zlen L)) ys in
    n' = cl (L ++ map lk y1) (enc (map snd (L ++ map lk y1))) /\ pend d' = map EvData (skipn (Z.to_nat (k - zlen L)) ys) /\ cfg d' = c /\ small y1.
  Proof.
    intros Hc H Hp Hl. cbn zeta. destruct (Z_le_gt_dec (zlen L + zlen ys) k) as [Hy|Hy].
    - apply (layer_all raw k bu fs _ _ _ _ _ ys) in H as (-> & P & C & S); auto. rewrite firstn_all2, skipn_all2 by (unfold zlen in *; lia). auto.
    - apply (layer_part raw k bu fs _ _ _ _ _ ys) in H as (y1 & y2 & -> & Hy1 & -> & P & C & S); auto; [|lia].
      replace (Z.to_nat (k - zlen L)) with (length y1) by (unfold zlen in *; lia). rewrite firstn_app, skipn_app, Nat.sub_diag, firstn_all, skipn_all, firstn_O, app_nil_r. cbn [app skipn]. auto.
  Qed.
  Lemma new_one f dp d (r : xnode * Z) d' ys : dp = 0 \/ dp = 1 -> cfg d = c -> new_subtree f dp d = (Ok r, d') -> pend d = map EvData ys ->
    (fst (fst r), snd r) = sub (firstn K ys) /\ pend d' = map EvData (skipn K ys) /\ cfg d' = c /\ small (firstn K ys).
  Proof.
    intros Hdp Hc H Hp. unfold new_subtree, with_new in H. rewrite (c_bu _ _ _ _ _ Hc), cl_new in H.
    destruct (fillTrickleRec f dp (cl [] [], d)) as [[[]|e| |] [n1 d1]] eqn:E; try discriminate. injection H as <- <-. cbn [fst snd].
    destruct f as [|f]; cbn [fillTrickleRec] in E; [discriminate|]. apply bind_ok in E as ([] & [n2 d2] & E1 & E).
    apply (layer_firstn _ _ _ _ _ ys) in E1 as (-> & P1 & C1 & S1); auto; [|unfold zlen; cbn; lia]. change (zlen (@nil (node * Z))) with 0 in *. rewrite Z.sub_0_r in *. cbn [app] in *.
    apply bind_ok in E as ([] & [n3 d3] & E2 & E).
    assert (X : n3 = cl (map lk (firstn K ys)) (enc (map snd (map lk (firstn K ys)))) /\ d3 = d2).
    { assert (B : (dp =? -1) || (1 <? dp) = false) by (destruct Hdp; subst; reflexivity). destruct f; cbn [depth_loop] in E2; rewrite B in E2; apply ret_ok in E2 as (_ & E2); injection E2 as -> ->; auto. }
    destruct X as (-> & ->). apply cl_commit in E as (-> & ->). split; [reflexivity|]. auto.
  Qed.
  Lemma add_groups f dp : dp = 0 \/ dp = 1 -> forall j L b d n' d' ys, cfg d = c -> pend d = map EvData ys -> add_children (new_subtree f dp) j (cl L b, d) = (Ok tt, (n', d')) ->
    n' = cl (L ++ map sub (grp j ys)) b /\ pend d' = map EvData (rst j ys) /\ cfg d' = c /\ Forall small (grp j ys).
  Proof.
    intros Hdp. induction j as [|j IH]; intros L b d n' d' ys Hc Hp H; cbn [add_children] in H.
    - injection H as <- <-. cbn [grp rst map]. rewrite app_nil_r. auto.
    - apply bind_ok in H as (dn & [n1 d1] & H1 & H). apply on_db_ok in H1 as (H1 & ->). apply done_ok in H1 as (P1 & C1 & B). destruct dn.
      + injection H as <- <-. apply (pend_nil ys) in B; [|exact Hp]. subst ys. rewrite grp_nil, rst_nil. cbn [map]. rewrite app_nil_r, P1, Hp. split; [reflexivity|]. split; [reflexivity|]. split; [congruence|constructor].
      + assert (Hy : ys <> []) by (intros ->; now apply B). apply bind_ok in H as (x & [n2 d2] & H2 & H). apply on_db_ok in H2 as (H2 & ->).
        apply (new_one _ _ _ _ _ ys Hdp) in H2 as (E2 & P2 & C2 & S2); [|congruence|congruence].
        apply bind_ok in H as ([] & [n3 d3] & H3 & H). apply cl_add in H3 as (-> & P3 & C3). rewrite E2 in H.
        apply (IH _ _ _ _ _ (skipn K ys)) in H as (-> & P4 & C4 & S4); [|congruence|congruence]. cbn [rst]. destruct ys as [|y ys]; [contradiction|]. cbn [grp map]. rewrite <- app_assoc. cbn [app]. auto.
  Qed.

  (** ** Importing more than the direct leaves *)

  Lemma layout_groups fuel d r d' xs ys : cfg d = c -> pend d = map EvData (xs ++ ys) -> zlen xs = k -> ys <> [] -> Layout fuel d = (Ok r, d') ->
    small xs /\ Forall small (grp 4 ys) /\ exists f1 f2 b n1 d1 n2 d2 n3 d3, 
      pend d1 = map EvData (rst 4 ys) /\ cfg d1 = c /\ n1 = cl (map lk xs ++ map sub (grp 4 ys)) b /\
      depth_loop (new_subtree f1) f2 2 (-1) (n1, d1) = (Ok tt, (n2, d2)) /\ commit (n2, d2) = (Ok tt, (n3, d3)) /\ r = seal (GetDagNode n3).
  Proof.
    intros Hc Hp Hx Hy H. unfold Layout in H. apply bind_ok in H as (x & d1 & H1 & H). apply bind_ok in H as ([] & d2 & H2 & H). unfold ret in H. injection H as <- <-.
    unfold new_subtree, with_new in H1. rewrite (c_bu _ _ _ _ _ Hc), cl_new in H1.
    destruct (fillTrickleRec fuel (-1) (cl [] [], d)) as [[[]|e| |] [n1 d1']] eqn:E; try discriminate. injection H1 as <- <-. cbn [fst].
    destruct fuel as [|f]; cbn [fillTrickleRec] in E; [discriminate|]. apply bind_ok in E as ([] & [m1 e1] & E1 & E).
    apply (layer_firstn _ _ _ _ _ (xs ++ ys)) in E1 as (-> & P1 & C1 & S1); auto; [|unfold zlen; cbn; lia]. change (zlen (@nil (node * Z))) with 0 in *. rewrite Z.sub_0_r in *.
    replace (Z.to_nat k) with (length xs) in * by (unfold zlen in Hx; lia). rewrite firstn_app, Nat.sub_diag, firstn_all, firstn_O, app_nil_r in *. rewrite skipn_app, Nat.sub_diag, skipn_all in P1. cbn [app skipn] in *.
    apply bind_ok in E as ([] & [m2 e2] & E2 & E).
    assert (E2' : (do d <- on_db Done ;; if d : bool then ret tt else do _ <- add_children (new_subtree f 1) (Z.to_nat depthRepeat) ;;
       match f with O => lift Fuel | S f' => depth_loop (new_subtree f) f' (1 + 1) (-1) end) (cl (map lk xs) (enc (map snd (map lk xs))), e1) = (Ok tt, (m2, e2))).
    { destruct f; cbn [depth_loop] in E2; change (-1 =? -1) with true in E2; cbn [orb] in E2; exact E2. }
    clear E2. apply bind_ok in E2' as (dn & [n5 d5] & D5 & E2). apply on_db_ok in D5 as (D5 & ->). apply done_ok in D5 as (P5 & C5 & B5).
    destruct dn; [rewrite P1 in B5; destruct ys; [contradiction|discriminate]|]. apply bind_ok in E2 as ([] & [n6 d6] & A6 & E2).
    change (Z.to_nat depthRepeat) with 4%nat in A6. apply (add_groups f 1 (or_intror eq_refl) 4 _ _ _ _ _ ys) in A6 as (-> & P6 & C6 & S6); [|congruence|congruence].
    destruct f as [|f']; [discriminate|]. change (1 + 1) with 2 in E2.
    split; [exact S1|]. split; [exact S6|]. exists (S f'), f', (enc (map snd (map lk xs))). eexists _, d6, m2, e2, n1, d1'. split; [exact P6|]. split; [exact C6|]. split; [reflexivity|]. split; [exact E2|]. split; [exact E|reflexivity].
  Qed.

  (** ** The groups of a longer list *)

  Lemma grp_last : forall m xs, xs <> [] -> (length xs <= m * K)%nat -> exists G z, (S (length G) <= m)%nat /\ z <> [] /\ (length z <= K)%nat /\
    (forall j ys, (length G < j)%nat -> grp j (xs ++ ys) = G ++ grp (j - length G) (z ++ ys) /\ rst j (xs ++ ys) = rst (j - length G) (z ++ ys)).
  Proof.
    assert (HK : (1 <= K)%nat) by lia.
    induction m as [|m IH]; intros xs Hx Hl; [destruct xs; [contradiction|cbn in Hl; lia]|].
    destruct (le_gt_dec (length xs) K) as [Hs|Hs].
    - exists [], xs. cbn [length app]. split; [lia|]. split; [exact Hx|]. split; [exact Hs|]. intros j ys _. rewrite Nat.sub_0_r. auto.
    - destruct (IH (skipn K xs)) as (G & z & H1 & H2 & H3 & H4).
      + intros E. apply (f_equal (@length _)) in E. rewrite skipn_length in E. cbn in E. lia.
      + rewrite skipn_length. lia.
      + exists (firstn K xs :: G), z. cbn [length]. split; [lia|]. split; [exact H2|]. split; [exact H3|]. intros [|j] ys Hj; [lia|].
        destruct (H4 j ys ltac:(lia)) as (E1 & E2). cbn [grp rst]. assert (F : firstn K (xs ++ ys) = firstn K xs) by (rewrite firstn_app; replace (K - length xs)%nat with O by lia; rewrite firstn_O; apply app_nil_r).
        assert (S : skipn K (xs ++ ys) = skipn K xs ++ ys) by (rewrite skipn_app; replace (K - length xs)%nat with O by lia; reflexivity).
        rewrite F, S, E1, E2. replace (Datatypes.S j - Datatypes.S (length G))%nat with (j - length G)%nat by lia. split; [|reflexivity]. destruct (xs ++ ys) eqn:E; [destruct xs; [contradiction|discriminate]|reflexivity].
  Qed.

  (** ** The last sub-graph *)

  Lemma rec_more fuel rfuel xs d n' d' ys : cfg d = c -> pend d = map EvData ys -> (length xs <= K)%nat ->
    appendRec fuel rfuel (-1) (cl (map lk xs) (enc (map snd (map lk xs))), d) = (Ok tt, (n', d')) ->
    n' = cl (map lk (firstn K (xs ++ ys))) (enc (map snd (map lk (firstn K (xs ++ ys))))) /\ pend d' = map EvData (skipn K (xs ++ ys)) /\ cfg d' = c.
  Proof.
    intros Hc Hp Hl H.
    assert (H' : (do dn <- on_db Done ;; if dn : bool then ret tt else match rfuel with O => lift Fuel | S rf =>
      do n <- get_fsn ;; do b <- get_db ;; let (depth0, repeatNumber) := trickleDepthInfo n (db_maxlinks b) in
      do depth <- (if depth0 =? 0 then do _ <- FillNodeLayer ;; ret 1 else ret depth0) ;;
      if depth =? -1 then ret tt else
      do _ <- appendFillLastChild fuel (appendRec fuel rf) depth repeatNumber ;;
      do d2 <- on_db Done ;;
      let depth' := if d2 : bool then depth else depth + 1 in
      (if (depth' <? -1) then depth_loop (new_subtree fuel) fuel depth' (-1) else ret tt) end) (cl (map lk xs) (enc (map snd (map lk xs))), d) = (Ok tt, (n', d'))).
    { destruct rfuel; cbn [appendRec] in H; change (-1 =? 0) with false in H; exact H. }
    clear H. apply bind_ok in H' as (dn & [n1 d1] & H1 & H). apply on_db_ok in H1 as (H1 & ->). apply done_ok in H1 as (P1 & C1 & B).
    destruct dn.
    - apply ret_ok in H as (_ & H). injection H as -> ->. apply (pend_nil ys) in B; [|exact Hp]. subst ys. rewrite app_nil_r, P1, Hp. rewrite firstn_all2, skipn_all2 by exact Hl. repeat split; congruence.
    - destruct rfuel as [|rf]; [discriminate|].
      apply bind_ok in H as (n & s1 & H2 & H). apply get_fsn_ok in H2 as (-> & ->). apply bind_ok in H as (d0 & s1 & H2 & H). apply get_db_ok in H2 as (-> & ->). cbn [fst snd] in H.
      unfold trickleDepthInfo in H. rewrite cl_num, (c_max raw k bu fs d1), leaves_len in H by congruence.
      assert (X : exists n2 d2, n2 = cl (map lk (firstn K (xs ++ ys))) (enc (map snd (map lk (firstn K (xs ++ ys))))) /\ pend d2 = map EvData (skipn K (xs ++ ys)) /\ cfg d2 = c /\
        exists rn, (do _ <- appendFillLastChild fuel (appendRec fuel rf) 1 rn ;; do d2 <- on_db Done ;; (if ((if d2 : bool then 1 else 1 + 1) <? -1) then depth_loop (new_subtree fuel) fuel (if d2 : bool then 1 else 1 + 1) (-1) else ret tt)) (n2, d2) = (Ok tt, (n', d'))).
      { destruct (zlen xs <? k) eqn:Ex.
        - change (0 =? 0) with true in H. cbn iota in H. apply bind_ok in H as (dp & [n2 d2] & H2 & H). apply bind_ok in H2 as ([] & [n3 d3] & H3 & H2). apply ret_ok in H2 as (-> & H2). injection H2 as -> ->.
          apply (layer_firstn _ _ _ _ _ ys) in H3 as (-> & P3 & C3 & S3); [|congruence|congruence|rewrite leaves_len; lia]. rewrite leaves_len in *.
          replace (Z.to_nat (k - zlen xs)) with (K - length xs)%nat in * by (unfold zlen; lia).
          change (1 =? -1) with false in H. cbn iota in H. eexists _, d3. split; [reflexivity|]. rewrite firstn_app, skipn_app, (firstn_all2 xs), (skipn_all2 xs) by exact Hl. cbn [app].
          split; [exact P3|]. split; [exact C3|]. exists 0. rewrite <- map_app in H. exact H.
        - assert (Ek : zlen xs = k) by (unfold zlen in *; lia). rewrite Ek, Z.sub_diag in H. unfold depthRepeat in H. change (0 / 4 + 1) with 1 in H. change (0 mod 4) with 0 in H. change (1 =? 0) with false in H. cbn iota in H.
          unfold bind at 1, ret at 1 in H. change (1 =? -1) with false in H. cbn iota in H. eexists _, d1. split; [reflexivity|].
          assert (EK : K = length xs) by (unfold zlen in *; lia). rewrite firstn_app, skipn_app, EK, Nat.sub_diag, firstn_all, skipn_all, firstn_O, app_nil_r. cbn [app skipn]. split; [congruence|]. split; [congruence|]. exists 0. exact H. }
      destruct X as (n2 & d2 & -> & P2 & C2 & rn & X). apply bind_ok in X as ([] & [n4 d4] & H4 & X).
      apply (fill_last_none raw k bu fs) in H4 as (-> & ->); [|exact C2|rewrite leaves_len; unfold zlen; rewrite firstn_length; lia].
      apply bind_ok in X as (dn & [n5 d5] & H5 & X). apply on_db_ok in H5 as (H5 & ->). apply done_ok in H5 as (P5 & C5 & B5).
      assert (Y : (n', d') = (cl (map lk (firstn K (xs ++ ys))) (enc (map snd (map lk (firstn K (xs ++ ys))))), d5)).
      { destruct dn; [change (1 <? -1) with false in X|change (1 + 1 <? -1) with false in X]; cbn iota in X; apply ret_ok in X as (_ & X); exact X. }
      injection Y as -> ->. split; [reflexivity|]. split; congruence.
  Qed.

  Lemma fill_last_more fuel rfuel L b z d n' d' ys rp : cfg d = c -> pend d = map EvData ys -> (length z <= K)%nat -> small z -> k <= zlen L -> 1 <= rp <= 3 ->
    appendFillLastChild fuel (appendRec fuel rfuel) 0 rp (cl (L ++ [sub z]) b, d) = (Ok tt, (n', d')) ->
    let ys' := skipn K (z ++ ys) in
    n' = cl (L ++ sub (firstn K (z ++ ys)) :: map sub (grp (Z.to_nat (4 - rp)) ys')) b /\ pend d' = map EvData (rst (Z.to_nat (4 - rp)) ys') /\ cfg d' = c.
  Proof.
    intros Hc Hp Hz Hs HL Hr H1. unfold appendFillLastChild in H1. apply bind_ok in H1 as (n & s1 & H2 & H1). apply get_fsn_ok in H2 as (-> & ->). apply bind_ok in H1 as (d0 & s1 & H2 & H1). apply get_db_ok in H2 as (-> & ->). cbn [fst snd] in H1.
    rewrite cl_num, (c_max raw k bu fs d Hc), zlen_app in H1. change (zlen [sub z]) with 1 in H1. replace (zlen L + 1 <=? k) with false in H1 by lia. replace (zlen L + 1 - 1) with (zlen L) in H1 by lia.
    apply bind_ok in H1 as (ch & s2 & H2 & H1). apply lift_ok in H2 as (H2 & ->).
    assert (Ech : ch = cl (map lk z) (enc (map snd (map lk z)))).
    { unfold GetChild in H2. pose proof (zlen_nonneg L). replace (zlen L <? 0) with false in H2 by lia. cbn [AppendSame.cl f_links] in H2. rewrite map_app, nth_error_app2 in H2 by (rewrite map_length; unfold zlen; lia).
      rewrite map_length in H2. replace (Z.to_nat (zlen L) - length L)%nat with O in H2 by (unfold zlen; lia). cbn [map nth_error] in H2.
      cbn [make_link lto AppendSame.sub fst] in H2. rewrite seal_nd in H2. unfold dserv_get in H2. destruct (_ && _); cbn [rbind] in H2; [|discriminate].
      unfold AppendSame.nd, GetDagNode in H2. cbn [f_prefix f_bytes AppendSame.cl] in H2. change (f_links _) with (f_links (cl (map lk z) [])) in H2. rewrite open_cl in H2 by (apply sizes_leaves, Hs). congruence. }
    subst ch. apply bind_ok in H1 as (nc & [n2 d2] & H3 & H1). unfold on_fsn in H3. cbn [fst snd] in H3. change (0 - 1) with (-1) in H3.
    destruct (appendRec fuel rfuel (-1) _) as [[[]|e| |] [n3 d3]] eqn:E3; try discriminate. injection H3 as <- <- <-.
    apply (rec_more _ _ _ _ _ _ ys) in E3 as (-> & P3 & C3); [|exact Hc|exact Hp|exact Hz].
    apply bind_ok in H1 as (n4 & s4 & H4 & H1). apply lift_ok in H4 as (H4 & ->).
    assert (E4 : n4 = cl L b).
    { unfold RemoveChild in H4. cbn [AppendSame.cl f_file f_links f_prefix f_bytes] in H4. rewrite map_app in H4. cbn [map] in H4. replace (zlen L) with (zlen (map snd L)) in H4 at 1 by (unfold zlen; now rewrite map_length).
      rewrite FS_remove in H4. cbn [rbind] in H4. destruct (_ <=? _) in H4; [discriminate|]. injection H4 as <-. unfold AppendSame.cl. f_equal.
      rewrite map_app. unfold ztake, zdrop, zlen. rewrite firstn_app, map_length, Nat2Z.id, Nat.sub_diag, firstn_O, app_nil_r, firstn_all2 by (rewrite map_length; lia).
      rewrite skipn_all2 by (rewrite app_length, map_length; cbn; lia). apply app_nil_r. }
    subst n4. apply bind_ok in H1 as ([] & s5 & H5 & H1). unfold set_fsn in H5. cbn [snd] in H5. injection H5 as <-.
    apply bind_ok in H1 as (fl & s5 & H5 & H1). apply lift_ok in H5 as (H5 & ->). unfold Commit in H5. cbn [AppendSame.cl f_file] in H5. rewrite FS_bytes in H5. cbn [rbind] in H5. injection H5 as <-.
    apply bind_ok in H1 as ([] & [n6 d6] & H6 & H1). apply cl_add in H6 as (-> & P6 & C6). replace (rp =? 0) with false in H1 by lia. cbn iota in H1.
    unfold depthRepeat in H1. cbn zeta.
    apply (add_groups fuel 0 (or_introl eq_refl) _ _ _ _ _ _ (skipn K (z ++ ys))) in H1 as (-> & P7 & C7 & S7); [|congruence|congruence].
    rewrite <- app_assoc. cbn [app]. split; [reflexivity|]. auto.
  Qed.
  Lemma sizes_groups G : Forall in_u64 (map snd (map sub G)).
  Proof. apply Forall_forall. intros v H. apply in_map_iff in H as (e & <- & He). apply in_map_iff in He as (g & <- & _). apply fsz_range. Qed.

  Lemma append_begun f1 f2 rf f3 d1 d2 d3 d1' d2' d3' base r base' r' xs x2 ys :
    cfg d1 = c -> cfg d2 = c -> cfg d3 = c -> zlen xs = k -> x2 <> [] -> zlen x2 <= 3 * k ->
    pend d1 = map EvData (xs ++ x2) -> Layout f1 d1 = (Ok base, d1') ->
    pend d2 = map EvData ys -> Append f2 rf base d2 = (Ok r, base', d2') ->
    pend d3 = map EvData (xs ++ (x2 ++ ys)) -> Layout f3 d3 = (Ok r', d3') -> r = r'.
  Proof.
    intros C1 C2 C3 Hx Hx2 Hl P1 L1 P2 L2 P3 L3.
    destruct (grp_last 3 x2 Hx2 ltac:(unfold zlen in *; lia)) as (G & z & HG & Hz & HzK & HGr).
    assert (X : (4 - length G = S (3 - length G))%nat) by lia.
    assert (R4 : rst 4 x2 = [] /\ grp 4 x2 = G ++ [z]).
    { destruct (HGr 4%nat [] ltac:(lia)) as (E1 & E2). rewrite !app_nil_r, X in E1, E2. rewrite (grp_S (3 - length G) z Hz) in E1. rewrite (rst_S (3 - length G) z) in E2.
      rewrite (skipn_all2 z HzK) in E1, E2. rewrite grp_nil, (firstn_all2 z HzK) in E1. rewrite rst_nil in E2. auto. }
    destruct R4 as (R4 & G4).
    apply (layout_groups _ _ _ _ xs x2) in L1 as (S1 & SG & g1 & g2 & b & n1 & e1 & n2 & e2 & n3 & e3 & Q1 & Q2 & -> & Q3 & Q4 & ->); auto.
    rewrite R4 in Q1. apply depth_loop_done in Q3 as (-> & Q3 & _); [|exact Q1]. apply cl_commit in Q4 as (-> & ->).
    assert (Eb : seal (GetDagNode (cl (map lk xs ++ map sub (grp 4 x2)) (enc (map snd (map lk xs ++ map sub (grp 4 x2)))))) = nd (map lk xs ++ map sub (grp 4 x2))) by apply seal_nd.
    rewrite Eb in L2. clear Eb. apply append_inv_cl with (raw := raw) (k := k) (fs := fs) in L2 as (n' & L2 & ->); [|exact C2|rewrite map_app; apply Forall_app; split; [apply sizes_leaves, S1|apply sizes_groups]].
    rewrite G4, map_app in L2. cbn [map] in L2. rewrite app_assoc in L2.
    apply (body_split raw k bu fs) in L2; [|exact C2]. cbn zeta in L2. set (L := map lk xs ++ map sub G) in *.
    assert (HL : zlen L = k + zlen G) by (unfold L; rewrite zlen_app, leaves_len; unfold zlen; rewrite map_length; unfold zlen in Hx; lia).
    assert (HG' : 0 <= zlen G <= 2) by (unfold zlen; lia).
    rewrite zlen_app, HL in L2. change (zlen [sub z]) with 1 in L2. replace (k + zlen G + 1 <? k) with false in L2 by lia. replace (k + zlen G + 1 - k) with (zlen G + 1) in L2 by lia.
    replace ((zlen G + 1) / 4) with 0 in L2 by (symmetry; apply Z.div_small; lia). replace ((zlen G + 1) mod 4) with (zlen G + 1) in L2 by (symmetry; apply Z.mod_small; lia).
    apply bind_ok in L2 as ([] & [m1 h1] & A1 & L2).
    assert (Sz : small z) by (rewrite G4 in SG; apply Forall_app in SG as (_ & SG); now inversion SG).
    apply (fill_last_more _ _ _ _ _ _ _ _ ys) in A1 as (-> & A2 & A3); [|exact C2|exact P2|exact HzK|exact Sz|lia|lia].
    apply (layout_groups _ _ _ _ xs (x2 ++ ys)) in L3 as (S3 & SG3 & g3 & g4 & b3 & n4 & e4 & n5 & e5 & n6 & e6 & U1 & U2 & -> & U3 & U4 & ->); auto; [|destruct x2; [contradiction|discriminate]].
    destruct (HGr 4%nat ys ltac:(lia)) as (E1 & E2). assert (Hzy : z ++ ys <> []) by (destruct z; [contradiction|discriminate]).
    rewrite X, (grp_S (3 - length G) (z ++ ys) Hzy) in E1. rewrite X, (rst_S (3 - length G) (z ++ ys)) in E2.
    assert (Xn : Z.to_nat (4 - (zlen G + 1)) = (3 - length G)%nat) by (unfold zlen; lia). rewrite Xn in *.
    assert (EL : L ++ sub (firstn K (z ++ ys)) :: map sub (grp (3 - length G) (skipn K (z ++ ys))) = map lk xs ++ map sub (grp 4 (x2 ++ ys))).
    { rewrite E1. unfold L. rewrite map_app, <- app_assoc. reflexivity. }
    rewrite EL in L2. rewrite <- E2 in A2. unfold tail in L2. apply bind_ok in L2 as (dn & [m2 h2] & B1 & L2). apply on_db_ok in B1 as (B1 & ->). apply done_ok in B1 as (B2 & B3 & B4). cbn zeta in L2.
    apply bind_ok in L2 as ([] & [m3 h3] & B5 & B6).
    assert (F : pf (m3, h3) (n5, e5)).
    { destruct dn.
      - apply depth_loop_done in B5 as (-> & B7 & B8); [|congruence]. apply depth_loop_done in U3 as (-> & U5 & U6); [|congruence].
        unfold pf, pd. cbn [fst snd AppendSame.cl f_prefix f_links f_file]. rewrite B7, U5, B8, U6, B3, A3, U2. auto.
      - change (1 + 1) with 2 in B5. change (0 + 1 + 1) with 2 in B5.
        refine (proj2 (rel_depth_loop (new_subtree f2) (new_subtree g3) (rel_subtree f2 g3) f2 g4 2 (-1) _ _ _ _ _ _ _ B5 U3)).
        unfold pf, pd. cbn [fst snd AppendSame.cl f_prefix f_links f_file]. rewrite B2, A2, U1, B3, A3, U2. auto. }
    destruct (commit_same _ _ _ _ F B6 U4) as (En & _). cbn [fst] in En. subst n'.
    symmetry. apply seal_unnamed. pose proof (depth_loop_longer _ _ _ _ _ _ _ _ U3) as (Ex & HEx & HU). apply commit_longer in U4. unfold GetDagNode. cbn [node_links]. rewrite U4, HEx.
    apply Forall_app. split; [apply links_unnamed|exact HU].
  Qed.
End begun.

Lemma app_begun f1 f2 rf f3 dbp fi1 fi2 fi3 a b w1 w2 w3 base base' r r' w1' w2' w3' :
  1 <= pr_maxlinks dbp -> pr_maxlinks dbp < zlen a <= 4 * pr_maxlinks dbp ->
  trickle_import f1 dbp fi1 (map EvData a) w1 = (Ok base, w1') ->
  trickle_append f2 rf dbp fi2 (map EvData b) base w2 = (Ok r, base', w2') ->
  trickle_import f3 dbp fi3 (map EvData (a ++ b)) w3 = (Ok r', w3') -> r = r'.
Proof.
  intros Hk Ha H1 H2 H3.
  apply build_inv in H1 as [(e & _ & H & _)|(d1 & d1' & _ & L1 & -> & P1 & _ & C1 & _)]; [discriminate|].
  apply append_inv in H2 as [(e & _ & H & _)|(d2 & d2' & _ & L2 & -> & P2 & _ & C2 & _)]; [discriminate|].
  apply build_inv in H3 as [(e & _ & H & _)|(d3 & d3' & _ & L3 & -> & P3 & _ & C3 & _)]; [discriminate|].
  set (K := Z.to_nat (pr_maxlinks dbp)). assert (Ea : a = firstn K a ++ skipn K a) by (symmetry; apply firstn_skipn).
  assert (Hf : zlen (firstn K a) = pr_maxlinks dbp) by (unfold zlen in *; rewrite firstn_length; unfold K; lia).
  assert (Hs : zlen (skipn K a) = zlen a - pr_maxlinks dbp) by (unfold zlen in *; rewrite skipn_length; unfold K; lia).
  rewrite Ea in P1. rewrite Ea, <- app_assoc in P3.
  refine (append_begun _ _ _ _ Hk f1 f2 rf f3 d1 d2 d3 d1' d2' d3' base r base' r' _ _ b C1 C2 C3 Hf _ _ P1 L1 P2 L2 P3 L3); [|lia].
  intros E. rewrite E in Hs. change (zlen (@nil bytes)) with 0 in Hs. lia.
Qed.

Lemma app_exact f1 f2 rf f3 dbp fi1 fi2 fi3 a b w1 w2 w3 base base' r r' w1' w2' w3' :
  1 <= pr_maxlinks dbp -> zlen a <= 4 * pr_maxlinks dbp ->
  trickle_import f1 dbp fi1 (map EvData a) w1 = (Ok base, w1') ->
  trickle_append f2 rf dbp fi2 (map EvData b) base w2 = (Ok r, base', w2') ->
  trickle_import f3 dbp fi3 (map EvData (a ++ b)) w3 = (Ok r', w3') ->
  (r = r' <-> pr_maxlinks dbp < zlen a \/ zlen a + zlen b <= 2 * pr_maxlinks dbp).
Proof.
  intros Hk Ha H1 H2 H3. split.
  - intros E. destruct (Z_lt_le_dec (pr_maxlinks dbp) (zlen a)) as [|Hl]; [now left|]. destruct (Z_le_gt_dec (zlen a + zlen b) (2 * pr_maxlinks dbp)) as [|Hg]; [now right|].
    apply Z.gt_lt in Hg. destruct (app_differs _ _ _ _ _ _ _ _ _ _ _ _ _ _ _ _ _ _ _ _ Hk Hl Hg H1 H2 H3 E).
  - intros [Hl|Hl].
    + exact (app_begun _ _ _ _ _ _ _ _ _ _ _ _ _ _ _ _ _ _ _ _ Hk (conj Hl Ha) H1 H2 H3).
    + exact (app_same _ _ _ _ _ _ _ _ _ _ _ _ _ _ _ _ _ _ _ _ Hk Hl H1 H2 H3).
Qed.
