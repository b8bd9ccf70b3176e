(** Adding data at the end of a file keeps all blocks except those on its right edge. *)
From Verif Require Import Base Pb PbProofs FSNode FSNodeProofs Dag DagProofs Builder Balanced Trickle Importer
  SpecFile BuilderProofs BalancedProofs ImportProofs AppendProofs AppendRun DirBasic AppendSame AppendBegun SpecShare ShareProofs SpecEdge.
From Coq Require Import Permutation.

Definition kept (n1 n2 : node) : Prop := forall m, reach n1 m -> on_edge n1 m \/ reach n2 m.
Definition ext (l1 l2 : list link) : Prop :=
  incl l1 l2 \/ exists a x y, l1 = a ++ [x] /\ incl a l2 /\ In y l2 /\ kept (lto x) (lto y).

Lemma kept_refl n : kept n n. Proof. intros m H. now right. Qed.
Lemma ext_incl a b c : ext a b -> incl b c -> ext a c.
Proof. intros [H|(p & x & y & -> & Hp & Hy & Hk)] Hi; [left; eapply incl_tran; eassumption|]. right. exists p, x, y. split; [reflexivity|]. split; [eapply incl_tran; eassumption|]. auto. Qed.
Lemma ext_kept n1 n2 : ext (node_links n1) (node_links n2) -> kept n1 n2.
Proof.
  intros H m Hm. inversion Hm as [|? l ? Hl Hr]; subst; [left; apply edge_self|]. destruct H as [H|(a & x & y & E & Ha & Hy & Hk)].
  - right. eapply reach_link; [apply H, Hl|exact Hr].
  - rewrite E in Hl. apply in_app_iff in Hl as [Hl|[<-|[]]]; [right; eapply reach_link; [apply Ha, Hl|exact Hr]|].
    destruct (Hk _ Hr) as [Ho|Ho]; [left; eapply edge_last; eassumption|right; eapply reach_link; eassumption].
Qed.
Lemma seal_incl n : incl (node_links n) (node_links (seal n)).
Proof. destruct n as [p d|p b ls]; cbn [seal node_links]; intros l Hl; [exact Hl|]. eapply Permutation_in; [apply Permutation_sym, lsort_perm|exact Hl]. Qed.
Lemma longer_incl n n' : longer n n' -> incl (f_links n) (f_links n').
Proof. intros (E & -> & _) l Hl. apply in_or_app. now left. Qed.

(** ** Trickle imports of a list and of a longer one *)

Section run.
  Variable t : list event.
  Definition lock (s1 s2 : fsn * db) : Prop := fst s1 = fst s2 /\ pend (snd s1) <> [] /\ pend (snd s2) = pend (snd s1) ++ t /\ cfg (snd s1) = cfg (snd s2).
  Definition apart (s1 s2 : fsn * db) : Prop := pend (snd s1) = [] /\ ext (f_links (fst s1)) (f_links (fst s2)).
  Definition steps (m1 m2 : M (fsn * db) unit) : Prop := forall s1 s2 s1' s2', lock s1 s2 -> m1 s1 = (Ok tt, s1') -> m2 s2 = (Ok tt, s2') -> lock s1' s2' \/ apart s1' s2'.
  Definition idle (m : M (fsn * db) unit) : Prop := forall n d n' d', pend d = [] -> m (n, d) = (Ok tt, (n', d')) -> f_links n' = f_links n /\ pend d' = [].
  Definition grows (m : M (fsn * db) unit) : Prop := forall n d n' d', m (n, d) = (Ok tt, (n', d')) -> longer n n'.
  Definition makes (mk1 mk2 : M db (xnode * Z)) : Prop := forall d1 d2 c1 c2 d1' d2', pend d1 <> [] -> pend d2 = pend d1 ++ t -> cfg d1 = cfg d2 ->
    mk1 d1 = (Ok c1, d1') -> mk2 d2 = (Ok c2, d2') ->
    (pend d1' <> [] /\ same_child c1 c2 /\ pend d2' = pend d1' ++ t /\ cfg d1' = cfg d2') \/ (pend d1' = [] /\ kept (seal (fst (fst c1))) (seal (fst (fst c2)))).

  Lemma steps_bind m1 m2 k1 k2 : steps m1 m2 -> steps k1 k2 -> idle k1 -> grows k2 -> steps (do _ <- m1 ;; k1) (do _ <- m2 ;; k2).
  Proof.
    intros Hm Hk Hi Hg s1 s2 [n1' d1'] [n2' d2'] H E1 E2. apply bind_ok in E1 as ([] & [n1 d1] & A1 & E1). apply bind_ok in E2 as ([] & [n2 d2] & A2 & E2).
    destruct (Hm _ _ _ _ H A1 A2) as [Hl|(Hp & Hx)]; [exact (Hk _ _ _ _ Hl E1 E2)|]. right. cbn [fst snd] in *. destruct (Hi _ _ _ _ Hp E1) as (L1 & P1). split; [exact P1|]. cbn [fst].
    rewrite L1. eapply ext_incl; [exact Hx|]. eapply longer_incl, Hg, E2.
  Qed.
  Lemma steps_ret : steps (ret tt) (ret tt).
  Proof. intros s1 s2 s1' s2' H E1 E2. injection E1 as <-. injection E2 as <-. now left. Qed.
  Lemma steps_fuel_l m : steps (lift Fuel) m. Proof. intros ? ? ? ? _ E. discriminate. Qed.
  Lemma steps_fuel_r m : steps m (lift Fuel). Proof. intros ? ? ? ? _ _ E. discriminate. Qed.
  Lemma idle_fuel : idle (lift Fuel). Proof. intros ? ? ? ? _ E. discriminate. Qed.
  Lemma grows_fuel : grows (lift Fuel). Proof. intros ? ? ? ? E. discriminate. Qed.
  Lemma steps_done k1 k2 : steps k1 k2 -> steps (do d <- on_db Done ;; if d : bool then ret tt else k1) (do d <- on_db Done ;; if d : bool then ret tt else k2).
  Proof.
    intros Hk [n1 d1] [n2 d2] s1' s2' (Hn & Hp & Hq & Hc) E1 E2. cbn [fst snd] in *. subst n2. apply bind_ok in E1 as (b1 & [m1 e1] & A1 & E1). apply bind_ok in E2 as (b2 & [m2 e2] & A2 & E2).
    apply on_db_ok in A1 as (A1 & ->). apply on_db_ok in A2 as (A2 & ->). apply done_ok in A1 as (P1 & C1 & B1). apply done_ok in A2 as (P2 & C2 & B2).
    destruct b1; [contradiction|]. destruct b2; [rewrite Hq in B2; apply app_eq_nil in B2 as (B2 & _); contradiction|].
    apply (Hk (n1, e1) (n1, e2) _ _); [|exact E1|exact E2]. split; [reflexivity|]. cbn [fst snd]. split; [congruence|]. split; congruence.
  Qed.
  Lemma idle_done k : idle (do d <- on_db Done ;; if d : bool then ret tt else k).
  Proof.
    intros n d n' d' Hp E. apply bind_ok in E as (b & [m e] & A & E). apply on_db_ok in A as (A & ->). apply done_ok in A as (P & C & B). destruct b; [|contradiction]. injection E as <- <-. split; [reflexivity|congruence].
  Qed.
  Lemma steps_child mk1 mk2 k1 k2 : makes mk1 mk2 -> steps k1 k2 -> idle k1 -> grows k2 ->
    steps (do c <- on_db mk1 ;; do _ <- AddChild (fst c) (snd c) ;; k1) (do c <- on_db mk2 ;; do _ <- AddChild (fst c) (snd c) ;; k2).
  Proof.
    intros Hm Hk Hi Hg [n d1] [n2 d2] [n1' d1'] [n2' d2'] (Hn & Hp & Hq & Hc) E1 E2. cbn [fst snd] in *. subst n2. apply bind_ok in E1 as (c1 & [m1 e1] & A1 & E1). apply bind_ok in E2 as (c2 & [m2 e2] & A2 & E2).
    apply on_db_ok in A1 as (A1 & ->). apply on_db_ok in A2 as (A2 & ->).
    apply bind_ok in E1 as ([] & [m3 e3] & B1 & E1). apply bind_ok in E2 as ([] & [m4 e4] & B2 & E2). apply AddChild_ok in B1 as (-> & P3 & C3). apply AddChild_ok in B2 as (-> & P4 & C4).
    destruct (Hm _ _ _ _ _ _ Hp Hq Hc A1 A2) as [(Hp' & (X1 & X2) & Hq' & Hc')|(Hp' & Hx)].
    - refine (Hk _ _ _ _ _ E1 E2). split; [cbn [fst]; now rewrite X1, X2|]. cbn [snd]. split; [congruence|]. split; congruence.
    - right. cbn [fst snd] in *. destruct (Hi _ _ _ _ (eq_trans P3 Hp') E1) as (L1 & P1). split; [exact P1|]. cbn [fst]. rewrite L1. cbn [f_links]. apply Hg in E2. apply longer_incl in E2. cbn [f_links] in E2.
      refine (ext_incl _ _ _ _ E2). right. exists (f_links n), (make_link [] (fst (fst c1))), (make_link [] (fst (fst c2))). split; [reflexivity|]. split; [intros l Hl; apply in_or_app; now left|].
      split; [apply in_or_app; right; now left|]. exact Hx.
  Qed.
  Lemma grows_child mk k : grows k -> grows (do c <- on_db mk ;; do _ <- AddChild (fst c) (snd c) ;; k).
  Proof.
    intros Hk n d n' d' E. apply bind_ok in E as (c & [m1 e1] & A1 & E). apply on_db_ok in A1 as (_ & ->). apply bind_ok in E as ([] & [m3 e3] & B1 & E). apply AddChild_ok in B1 as (-> & _).
    eapply longer_trans; [|eapply Hk, E]. eexists. split; [reflexivity|repeat constructor].
  Qed.
  Lemma grows_done k : grows k -> grows (do d <- on_db Done ;; if d : bool then ret tt else k).
  Proof. intros Hk n d n' d' E. apply bind_ok in E as (b & [m e] & A & E). apply on_db_ok in A as (_ & ->). destruct b; [injection E as <- <-; apply longer_refl|eapply Hk, E]. Qed.

  Lemma idle_add mk j : idle (add_children mk j).
  Proof. intros n d n' d' Hp E. apply add_children_done in E as (-> & P & _); auto. Qed.
  Lemma idle_depth fill f dp mx : idle (depth_loop fill f dp mx).
  Proof. intros n d n' d' Hp E. apply depth_loop_done in E as (-> & P & _); auto. Qed.
  Lemma idle_commit : idle commit.
  Proof. intros n d n' d' Hp E. apply commit_inv in E as (b & _ & -> & ->). auto. Qed.
  Lemma grows_commit : grows commit.
  Proof. intros n d n' d' E. apply commit_longer in E. exists []. rewrite app_nil_r. split; [exact E|constructor]. Qed.
  Lemma steps_commit : steps commit commit.
  Proof.
    intros [n1 d1] [n2 d2] [n1' d1'] [n2' d2'] (Hn & H) E1 E2. cbn [fst snd] in *. subst n2. apply commit_inv in E1 as (b1 & B1 & -> & ->). apply commit_inv in E2 as (b2 & B2 & -> & ->). left. split; [cbn [fst]; congruence|exact H].
  Qed.

  Lemma steps_add mk1 mk2 : makes mk1 mk2 -> forall j, steps (add_children mk1 j) (add_children mk2 j).
  Proof.
    intros Hm. induction j as [|j IH]; cbn [add_children]; [apply steps_ret|]. apply steps_done, steps_child; auto; [apply idle_add|]. intros n d n' d'. apply add_children_longer.
  Qed.
  Lemma steps_depth fill1 fill2 : (forall z, makes (fill1 z) (fill2 z)) -> forall f1 f2 dp mx, steps (depth_loop fill1 f1 dp mx) (depth_loop fill2 f2 dp mx).
  Proof.
    intros Hm. induction f1 as [|f1 IH]; intros f2 dp mx; destruct f2; cbn [depth_loop]; (destruct (_ || _); [|apply steps_ret]); apply steps_done;
      (apply steps_bind; [apply steps_add, Hm| | |]); first [apply steps_fuel_l|apply steps_fuel_r|apply idle_fuel|apply grows_fuel|apply IH|apply idle_depth|intros ? ? ? ?; apply depth_loop_longer].
  Qed.
  Lemma makes_leaf : makes (NewLeafDataNode TRaw) (NewLeafDataNode TRaw).
  Proof.
    intros d1 d2 [x1 z1] [x2 z2] d1' d2' Hp Hq Hc E1 E2. destruct (cfg d1) as [[[raw k] bu] fs] eqn:Ec.
    destruct (AppendSame.leaf_ok raw k bu fs d1 x1 z1 d1' Ec E1 Hp) as (b1 & P1 & C1 & L1 & _). destruct (AppendSame.leaf_ok raw k bu fs d2 x2 z2 d2' (eq_sym Hc) E2) as (b2 & P2 & C2 & L2 & _).
    { rewrite Hq. intros E. apply app_eq_nil in E as (E & _). contradiction. }
    rewrite Hq, P1 in P2. cbn [app] in P2. injection P2 as <- P2. rewrite <- L2 in L1. injection L1 as X1 X2.
    destruct (pend d1') eqn:Ep; [right|left].
    - split; [reflexivity|]. cbn [fst]. rewrite X1. apply kept_refl.
    - split; [discriminate|]. split; [split; assumption|]. split; congruence.
  Qed.
  Lemma fill_grows : forall f, grows (fill_loop (NewLeafDataNode TRaw) f).
  Proof.
    induction f as [|f IH]; intros n d n' d' E; cbn [fill_loop] in E; (destruct (_ <? _); [|injection E as <- <-; apply longer_refl]); revert E; apply grows_done, grows_child; [apply grows_fuel|exact IH].
  Qed.
  Lemma fill_idle : forall f, idle (fill_loop (NewLeafDataNode TRaw) f).
  Proof.
    intros f n d n' d' Hp E. destruct f; cbn [fill_loop] in E; (destruct (_ <? _); [|injection E as <- <-; auto]); revert E; apply idle_done; exact Hp.
  Qed.
  Lemma fill_steps : forall f1 f2, steps (fill_loop (NewLeafDataNode TRaw) f1) (fill_loop (NewLeafDataNode TRaw) f2).
  Proof.
    assert (X : forall k1 k2, steps k1 k2 -> idle k1 -> grows k2 -> forall s1 s2 s1' s2', lock s1 s2 ->
      (if fNumChildren (fst s1) <? db_maxlinks (snd s1) then (do d <- on_db Done ;; if d : bool then ret tt else do c <- on_db (NewLeafDataNode TRaw) ;; do _ <- AddChild (fst c) (snd c) ;; k1) s1 else (Ok tt, s1)) = (Ok tt, s1') ->
      (if fNumChildren (fst s2) <? db_maxlinks (snd s2) then (do d <- on_db Done ;; if d : bool then ret tt else do c <- on_db (NewLeafDataNode TRaw) ;; do _ <- AddChild (fst c) (snd c) ;; k2) s2 else (Ok tt, s2)) = (Ok tt, s2') ->
      lock s1' s2' \/ apart s1' s2').
    { intros k1 k2 Hk Hi Hg s1 s2 s1' s2' H E1 E2. pose proof H as (Hn & _ & _ & Hc). destruct (cfg_fields _ _ Hc) as (_ & Em & _). rewrite Hn, Em in E1. destruct (_ <? _).
      - exact (steps_done _ _ (steps_child _ _ _ _ makes_leaf Hk Hi Hg) _ _ _ _ H E1 E2).
      - injection E1 as <-. injection E2 as <-. now left. }
    induction f1 as [|f1 IH]; intros f2 s1 s2 s1' s2' H E1 E2; destruct f2; cbn [fill_loop] in *; (eapply X; [| | |exact H|exact E1|exact E2]);
      first [apply steps_fuel_l|apply steps_fuel_r|apply idle_fuel|apply grows_fuel|apply IH|apply fill_idle|apply fill_grows].
  Qed.
  Lemma layer_steps : steps FillNodeLayer FillNodeLayer.
  Proof. intros s1 s2 s1' s2' H E1 E2. unfold FillNodeLayer in *. exact (steps_bind _ _ _ _ (fill_steps _ _) steps_commit idle_commit grows_commit _ _ _ _ H E1 E2). Qed.
  Lemma layer_longer n d n' d' : FillNodeLayer (n, d) = (Ok tt, (n', d')) -> longer n n'.
  Proof. unfold FillNodeLayer. intros E. apply bind_ok in E as ([] & [m e] & A & E). eapply longer_trans; [eapply fill_grows, A|eapply grows_commit, E]. Qed.
  Lemma rec_longer f mx n d n' d' : fillTrickleRec f mx (n, d) = (Ok tt, (n', d')) -> longer n n'.
  Proof.
    destruct f; cbn [fillTrickleRec]; [discriminate|]. intros E. apply bind_ok in E as ([] & [m e] & A & E). apply bind_ok in E as ([] & [m2 e2] & B & E).
    eapply longer_trans; [eapply layer_longer, A|]. eapply longer_trans; [eapply depth_loop_longer, B|eapply grows_commit, E].
  Qed.
  Lemma grows_depth fill f dp mx : grows (depth_loop fill f dp mx). Proof. intros n d n' d'. apply depth_loop_longer. Qed.
  Lemma rec_steps : forall f1 f2 mx, steps (fillTrickleRec f1 mx) (fillTrickleRec f2 mx) /\ makes (new_subtree f1 mx) (new_subtree f2 mx).
  Proof.
    induction f1 as [|f1 IH]; intros f2 mx.
    - split; [intros ? ? ? ? _ E; discriminate|]. intros d1 d2 c1 c2 d1' d2' _ _ _ E. discriminate.
    - assert (S : steps (fillTrickleRec (S f1) mx) (fillTrickleRec f2 mx)).
      { destruct f2 as [|f2]; [intros ? ? ? ? _ _ E; discriminate|]. cbn [fillTrickleRec].
        apply steps_bind; [apply layer_steps| | |].
        - apply steps_bind; [apply steps_depth; intros z; exact (proj2 (IH f2 z))|apply steps_commit|apply idle_commit|apply grows_commit].
        - intros n d n' d' Hp E. apply bind_ok in E as ([] & [m e] & A & E). apply idle_depth in A as (L1 & P1); [|exact Hp]. apply idle_commit in E as (L2 & P2); [|exact P1]. split; congruence.
        - intros n d n' d' E. apply bind_ok in E as ([] & [m e] & A & E). eapply longer_trans; [eapply depth_loop_longer, A|eapply grows_commit, E]. }
      split; [exact S|]. intros d1 d2 c1 c2 d1' d2' Hp Hq Hc E1 E2. unfold new_subtree, with_new in *. destruct (cfg_fields _ _ Hc) as (_ & _ & Eb & _). rewrite Eb in E1. set (n := NewFSNodeOverDag (db_builder d2) TFile) in *.
      destruct (fillTrickleRec (Datatypes.S f1) mx (n, d1)) as [[[]| | |] [n1 e1]] eqn:E3; try discriminate. destruct (fillTrickleRec f2 mx (n, d2)) as [[[]| | |] [n2 e2]] eqn:E4; try discriminate.
      injection E1 as <- <-. injection E2 as <- <-. destruct (S (n, d1) (n, d2) _ _ (conj eq_refl (conj Hp (conj Hq Hc))) E3 E4) as [(Hn & Hp' & Hq' & Hc')|(Hp' & Hx)]; cbn [fst snd] in *.
      + left. subst n2. split; [exact Hp'|]. split; [split; reflexivity|]. auto.
      + right. split; [exact Hp'|]. pose proof (rec_longer _ _ _ _ _ _ E3) as (E & HE & HU). cbn [n NewFSNodeOverDag f_links] in HE. rewrite (seal_unnamed (GetDagNode n1)) by (unfold GetDagNode; cbn [node_links]; rewrite HE; exact HU).
        apply ext_kept. cbn [GetDagNode node_links]. eapply ext_incl; [exact Hx|]. exact (seal_incl (GetDagNode n2)).
  Qed.
End run.

Lemma trickle_kept dbp xs ys r1 r2 : imported true dbp xs r1 -> imported true dbp (xs ++ ys) r2 -> kept r1 r2.
Proof.
  intros (Hx & _ & f1 & fi1 & w1 & w1' & _ & _ & H1) (_ & _ & f2 & fi2 & w2 & w2' & _ & _ & H2).
  apply build_inv in H1 as [(e & _ & H & _)|(d1 & d1' & _ & L1 & _ & P1 & _ & C1 & _)]; [discriminate|]. apply build_inv in H2 as [(e & _ & H & _)|(d2 & d2' & _ & L2 & _ & P2 & _ & C2 & _)]; [discriminate|].
  unfold Layout in *. apply bind_ok in L1 as (c1 & e1 & A1 & L1). apply bind_ok in L1 as ([] & g1 & _ & L1). injection L1 as <- _. apply bind_ok in L2 as (c2 & e2 & A2 & L2). apply bind_ok in L2 as ([] & g2 & _ & L2). injection L2 as <- _.
  destruct (proj2 (rec_steps (map EvData ys) f1 f2 (-1)) d1 d2 c1 c2 e1 e2) as [(_ & (E & _) & _)|(_ & H)]; auto; [rewrite P1; now destruct xs|now rewrite P1, P2, map_app|congruence|rewrite E; apply kept_refl].
Qed.

(** ** Balanced imports *)

Lemma perfect_run k d : 1 <= k -> forall n cs m, perfect k d n -> file_dag n cs -> reach n m ->
  exists e pre c post, cs = pre ++ c ++ post /\ zlen c = k ^ Z.of_nat e /\ (exists j, zlen pre = j * k ^ Z.of_nat e) /\ perfect k e m /\ file_dag m c /\ (e <= d)%nat.
Proof.
  intros Hk. induction d as [|d IH]; intros n cs m Hp Hf Hm.
  - cbn [perfect] in Hp. inversion Hm as [|? l ? Hl]; subst; [|rewrite Hp in Hl; destruct Hl]. exists 0%nat, [], cs, []. rewrite app_nil_r. split; [reflexivity|]. split; [apply (perfect_count k 0 Hk m cs Hf Hp)|].
    split; [exists 0; reflexivity|]. split; [exact Hp|]. split; [exact Hf|lia].
  - inversion Hm as [|? l ? Hl Hr]; subst.
    + exists (S d), [], cs, []. rewrite app_nil_r. split; [reflexivity|]. split; [apply (perfect_count k (S d) Hk m cs Hf Hp)|]. split; [exists 0; reflexivity|]. split; [exact Hp|]. split; [exact Hf|lia].
    + destruct Hp as (_ & Hp). destruct (file_dag_links n cs Hf) as [E0|(css & F & ->)]; [rewrite E0 in Hl; destruct Hl|].
      apply in_split in Hl as (a & b & E). rewrite E, map_app in F. rewrite E in Hp. apply Forall_app in Hp as (Ha & Hb). inversion Hb as [|? ? Hlp _]; subst.
      apply Forall2_app_l in F as (ca & cb & -> & Fa & Fb). cbn [map] in Fb. inversion Fb as [|? y ? r Fl Fr]; subst.
      destruct (IH _ _ _ Hlp Fl Hr) as (e & pre & c & post & -> & Hc & (j & Hj) & He & Hfc & Hed).
      exists e, (concat ca ++ pre), c, (post ++ concat r). split; [rewrite concat_app; cbn [concat]; now rewrite <- !app_assoc|]. split; [exact Hc|]. split; [|split; [exact He|split; [exact Hfc|lia]]].
      assert (Z1 : zlen (concat ca) = zlen a * k ^ Z.of_nat d).
      { clear - Hk Ha Fa. revert ca Fa. induction Ha as [|z ls P _ IH]; intros ca Fa; cbn [map] in Fa; inversion Fa as [|? y ? r A B]; subst; [unfold zlen; cbn; lia|].
        cbn [concat]. rewrite zlen_app, (IH _ B), (perfect_count k d Hk _ _ A P). unfold zlen. cbn [length]. lia. }
      exists (zlen a * k ^ Z.of_nat (d - e) + j). rewrite zlen_app, Z1, Hj. replace (Z.of_nat d) with (Z.of_nat (d - e) + Z.of_nat e) by lia. rewrite Z.pow_add_r by lia. ring.
Qed.

Lemma edge_run k d : 1 <= k -> forall n cs m, left_full k d n -> file_dag n cs -> reach n m ->
  on_edge n m \/ exists e pre c post, cs = pre ++ c ++ post /\ zlen c = k ^ Z.of_nat e /\ (exists j, zlen pre = j * k ^ Z.of_nat e) /\ perfect k e m /\ file_dag m c /\ (e <= d)%nat.
Proof.
  intros Hk. induction d as [|d IH]; intros n cs m Hp Hf Hm.
  - cbn [left_full] in Hp. inversion Hm as [|? l ? Hl]; subst; [left; apply edge_self|rewrite Hp in Hl; destruct Hl].
  - inversion Hm as [|? l ? Hl Hr]; subst; [left; apply edge_self|]. destruct Hp as (ls & x & E & _ & Ha & Hx).
    destruct (file_dag_links n cs Hf) as [E0|(css & F & ->)]; [rewrite E0 in Hl; destruct Hl|].
    rewrite E, map_app in F. apply Forall2_app_l in F as (ca & cb & -> & Fa & Fb). inversion Fb as [|? y ? r Fl Fr]; subst. inversion Fr; subst.
    assert (Z1 : forall a cz, Forall (fun l => perfect k d (lto l)) a -> Forall2 file_dag (map lto a) cz -> zlen (concat cz) = zlen a * k ^ Z.of_nat d).
    { clear - Hk. intros a cz Ha. revert cz. induction Ha as [|z ls P _ IH]; intros ca Fa; cbn [map] in Fa; inversion Fa as [|? y ? r A B]; subst; [unfold zlen; cbn; lia|].
      cbn [concat]. rewrite zlen_app, (IH _ B), (perfect_count k d Hk _ _ A P). unfold zlen. cbn [length]. lia. }
    assert (Zj : forall a cz e j, Forall (fun l => perfect k d (lto l)) a -> Forall2 file_dag (map lto a) cz -> (e <= d)%nat -> zlen (concat cz) + j * k ^ Z.of_nat e = (zlen a * k ^ Z.of_nat (d - e) + j) * k ^ Z.of_nat e).
    { intros a cz e j H1 H2 H3. rewrite (Z1 a cz H1 H2). replace (Z.of_nat d) with (Z.of_nat (d - e) + Z.of_nat e) by lia. rewrite Z.pow_add_r by lia. ring. }
    rewrite E in Hl. apply in_app_iff in Hl as [Hl|[<-|[]]].
    + right. apply in_split in Hl as (a & b & ->). rewrite map_app in Fa. apply Forall_app in Ha as (Ha & Hb). inversion Hb as [|? ? Hlp _]; subst.
      apply Forall2_app_l in Fa as (c1 & c2 & -> & F1 & F2). cbn [map] in F2. inversion F2 as [|? z ? r Fz Fr']; subst.
      destruct (perfect_run k d Hk _ _ _ Hlp Fz Hr) as (e & pre & c & post & -> & Hc & (j & Hj) & He & Hfc & Hed).
      exists e, (concat c1 ++ pre), c, (post ++ concat r ++ y). split; [rewrite !concat_app; cbn [concat]; rewrite app_nil_r, <- !app_assoc; reflexivity|]. split; [exact Hc|]. split; [|split; [exact He|split; [exact Hfc|lia]]].
      exists (zlen a * k ^ Z.of_nat (d - e) + j). rewrite zlen_app, Hj. now apply Zj.
    + destruct (IH _ _ _ Hx Fl Hr) as [Ho|(e & pre & c & post & -> & Hc & (j & Hj) & He & Hfc & Hed)]; [left; eapply edge_last; eassumption|right].
      exists e, (concat ca ++ pre), c, post. split; [rewrite concat_app; cbn [concat]; rewrite app_nil_r, <- !app_assoc; reflexivity|]. split; [exact Hc|]. split; [|split; [exact He|split; [exact Hfc|lia]]].
      exists (zlen ls * k ^ Z.of_nat (d - e) + j). rewrite zlen_app, Hj. now apply Zj.
Qed.

(** The blocks of the edge of a tree of depth [d]. *)
Lemma edge_path k d : forall n, left_full k d n -> exists path, length path = S d /\ forall m, on_edge n m -> In m path.
Proof.
  induction d as [|d IH]; intros n H.
  - exists [n]. split; [reflexivity|]. intros m Hm. inversion Hm as [|? ls l ? E]; subst; [now left|]. cbn [left_full] in H. rewrite H in E. now destruct ls.
  - destruct H as (ls & l & E & _ & _ & H). destruct (IH _ H) as (p & Hl & Hp). exists (n :: p). split; [cbn [length]; now rewrite Hl|]. intros m Hm. inversion Hm as [|? ls' l' ? E' Hm']; subst; [now left|].
    right. rewrite E in E'. apply app_inj_tail in E' as (_ & <-). auto.
Qed.

Lemma balanced_kept dbp xs ys r1 r2 : 2 <= pr_maxlinks dbp -> imported false dbp xs r1 -> imported false dbp (xs ++ ys) r2 -> kept r1 r2.
Proof.
  intros Hk H1 H2 m Hm. pose proof H1 as (_ & _ & fuel & fi & w & w' & HI). destruct (imported_facts _ _ _ _ H1) as (Hf & A2 & A3 & A4 & _ & A6). destruct (imported_facts _ _ _ _ H2) as (_ & B2 & B3 & B4 & _).
  destruct (balanced_facts _ _ _ _ _ _ _ HI) as (_ & _ & dp & cs' & Hl & _).
  destruct (edge_run (pr_maxlinks dbp) dp ltac:(lia) _ _ _ Hl Hf Hm) as [Ho|(e & pre & c & post & -> & Hc & Hj & He & Hfc & _)]; [now left|right].
  rewrite <- !app_assoc in H2. destruct (run_at _ _ _ e pre c (post ++ ys) Hk H2 eq_refl Hc Hj) as (m' & M1 & M2 & M3).
  assert (m = m') as <-; [|exact M1].
  apply (perfect_same (pr_builder dbp) (pr_raw dbp) (pr_maxlinks dbp) e ltac:(lia) TFile m m' c); auto.
  - exact (uniform_reach _ _ _ _ _ A2 Hm).
  - exact (uniform_reach _ _ _ _ _ B2 M1).
  - intros x Hx. apply A3. exact (reach_trans _ _ _ Hm Hx).
  - intros x Hx. apply B3. exact (reach_trans _ _ _ M1 Hx).
  - intros x l Hx. apply A4. exact (reach_trans _ _ _ Hm Hx).
  - intros x l Hx. apply B4. exact (reach_trans _ _ _ M1 Hx).
  - intros z Hi. apply A6. apply in_or_app. right. apply in_or_app. now left.
Qed.

Lemma balanced_few dbp xs ys r1 r2 : 2 <= pr_maxlinks dbp -> imported false dbp xs r1 -> imported false dbp (xs ++ ys) r2 ->
  exists path, (forall m, reach r1 m -> In m path \/ reach r2 m) /\ (2 <= zlen path -> pr_maxlinks dbp ^ (zlen path - 2) < zlen xs).
Proof.
  intros Hk H1 H2. pose proof (balanced_kept _ _ _ _ _ Hk H1 H2) as K. destruct (imported_facts _ _ _ _ H1) as (Hf & _). destruct H1 as (_ & _ & fuel & fi & w & w' & HI).
  destruct (balanced_facts _ _ _ _ _ _ _ HI) as (_ & _ & dp & cs' & Hl & Hf' & Hb). destruct (edge_path _ _ _ Hl) as (path & Hp & He).
  exists path. split; [intros m Hm; destruct (K m Hm); auto|]. intros H. unfold zlen in H |- * at 1. rewrite Hp in *. destruct (Hb ltac:(lia)) as (_ & Hb').
  assert (E : zlen cs' = zlen xs). { pose proof (leaves_dag _ _ Hf) as D. pose proof (leaves_dag _ _ Hf') as D'. apply Forall2_len in D. apply Forall2_len in D'. unfold zlen. lia. }
  rewrite <- E. eapply Z.le_lt_trans; [|exact Hb']. apply Z.eq_le_incl. f_equal. lia.
Qed.

(** ** Append *)

Definition synced (n : fsn) : Prop := zlen (d_blocksizes (f_file n)) = zlen (f_links n).
Definition fine (n : fsn) : Prop := synced n /\ forall l, In l (f_links n) -> exists cs, file_dag (lto l) cs.
Lemma add_synced x sz n d n' d' : synced n -> AddChild x sz (n, d) = (Ok tt, (n', d')) -> synced n'.
Proof. intros H E. apply AddChild_ok in E as (-> & _). unfold synced in *. cbn [f_file f_links]. rewrite zlen_app. unfold AddBlockSize. cbn [set_blocksizes d_blocksizes UpdateFilesize set_filesize]. rewrite zlen_app. unfold zlen in *. cbn [length]. lia. Qed.
Lemma fill_synced : forall f n d n' d', synced n -> fill_loop (NewLeafDataNode TRaw) f (n, d) = (Ok tt, (n', d')) -> synced n'.
Proof.
  induction f as [|f IH]; intros n d n' d' H E; cbn [fill_loop] in E; (destruct (_ <? _); [|injection E as <- <-; exact H]);
    apply bind_ok in E as (b & [m e] & A & E); apply on_db_ok in A as (_ & ->); (destruct b; [injection E as <- <-; exact H|]);
    apply bind_ok in E as (c & [m e2] & A & E); apply on_db_ok in A as (_ & ->); apply bind_ok in E as ([] & [m3 e3] & A & E); apply add_synced in A; auto; [discriminate|].
  eapply IH; eassumption.
Qed.
Lemma layer_synced n d n' d' : synced n -> FillNodeLayer (n, d) = (Ok tt, (n', d')) -> synced n'.
Proof. unfold FillNodeLayer. intros H E. apply bind_ok in E as ([] & [m e] & A & E). apply fill_synced in A; [|exact H]. apply commit_inv in E as (b & _ & -> & _). exact A. Qed.

Lemma open_fine p b ls cs n : file_dag (NProto p b ls) cs -> NewFSNFromDag p b ls = Ok n -> fine n /\ f_links n = ls.
Proof.
  intros Hf H. unfold NewFSNFromDag in H. destruct (FSNodeFromBytes b) as [fs| | |] eqn:E; try discriminate. injection H as <-. cbn [f_links]. split; [|reflexivity]. split.
  - unfold synced. cbn [f_file f_links]. inversion Hf as [|? ? fs' E' _ Hb _|? ? fs' ? css _ _ E' _ _ HF Hb _]; subst; rewrite E in E'; injection E' as <-; rewrite Hb; [reflexivity|].
    apply Forall2_len in HF. unfold zlen. rewrite !map_length in *. f_equal. symmetry. exact HF.
  - cbn [f_links]. intros l Hl. inversion Hf as [|? ? fs' E' _ Hb _|? ? fs' ? css _ _ E' _ _ HF Hb _]; subst; [destruct Hl|]. apply in_split in Hl as (x & y & ->). rewrite map_app in HF. apply Forall2_app_l in HF as (c1 & c2 & _ & _ & HF). inversion HF; subst. eauto.
Qed.

Lemma last_ext fuel rec dp rp n d n' d' ls E : (forall mx n d n' d', fine n -> rec mx (n, d) = (Ok tt, (n', d')) -> ext (f_links n) (f_links n')) ->
  synced n -> f_links n = ls ++ E -> (forall l, In l ls -> exists cs, file_dag (lto l) cs) ->
  appendFillLastChild fuel rec dp rp (n, d) = (Ok tt, (n', d')) -> ext ls (f_links n').
Proof.
  intros IH Hs HE Hls H. unfold appendFillLastChild in H. apply bind_ok in H as (n0 & s1 & H2 & H). apply get_fsn_ok in H2 as (-> & ->). apply bind_ok in H as (d0 & s1 & H2 & H). apply get_db_ok in H2 as (-> & ->). cbn [fst snd] in H.
  destruct (_ <=? _); [apply ret_ok in H as (_ & H); injection H as -> ->; left; rewrite HE; intros l Hl; apply in_or_app; now left|].
  apply bind_ok in H as (ch & s2 & H2 & H). apply lift_ok in H2 as (H2 & ->). apply bind_ok in H as (nc & [n2 d2] & H3 & H). unfold on_fsn in H3. cbn [fst snd] in H3.
  destruct (rec (dp - 1) (ch, d)) as [[[]|e| |] [n3 d3]] eqn:E3; try discriminate. injection H3 as <- <- <-.
  apply bind_ok in H as (n4 & s4 & H4 & H). apply lift_ok in H4 as (H4 & ->). apply bind_ok in H as ([] & s5 & H5 & H). unfold set_fsn in H5. cbn [snd] in H5. injection H5 as <-.
  apply bind_ok in H as (fl & s5 & H5 & H). apply lift_ok in H5 as (H5 & ->). apply bind_ok in H as ([] & [n6 d6] & H6 & H). apply AddChild_ok in H6 as (-> & _).
  assert (L6 : longer (mkFsn (f_prefix n4) (f_bytes n4) (f_links n4 ++ [make_link [] (GetDagNode fl)]) (AddBlockSize (fFileSize n3) (f_file n4))) n').
  { destruct (rp =? 0); [apply ret_ok in H as (_ & H); injection H as -> ->; apply longer_refl|eapply add_children_longer, H]. }
  apply longer_incl in L6. cbn [f_links] in L6. clear H.
  unfold fNumChildren, NumChildren in *. rewrite Hs in *.
  unfold GetChild in H2. destruct (_ <? 0) eqn:E0 in H2; [discriminate|]. apply Z.ltb_ge in E0.
  destruct (exists_last (l := f_links n)) as (B & l & EB); [intros E1; rewrite E1 in E0; unfold zlen in E0; cbn [length] in E0; lia|].
  rewrite EB in H2, H4. assert (EZ : zlen (B ++ [l]) - 1 = zlen B) by (rewrite zlen_app; change (zlen [l]) with 1; lia). rewrite EZ in *.
  rewrite nth_error_app2 in H2 by (unfold zlen; lia). replace (Z.to_nat (zlen B) - length B)%nat with O in H2 by (unfold zlen; lia). cbn [nth_error] in H2.
  unfold RemoveChild in H4. destruct (RemoveBlockSize _ _) as [f4| | |]; try discriminate. cbn [rbind] in H4. rewrite EB in H4. destruct (_ <=? _) in H4; [discriminate|]. injection H4 as <-. cbn [f_links] in L6.
  assert (EL : ztake (zlen B) (B ++ [l]) ++ zdrop (zlen B + 1) (B ++ [l]) = B).
  { unfold ztake, zdrop, zlen. rewrite firstn_app, Nat2Z.id, Nat.sub_diag, firstn_O, app_nil_r, firstn_all. rewrite skipn_all2 by (rewrite app_length; cbn; lia). apply app_nil_r. }
  rewrite EL in L6. unfold dserv_get in H2. destruct (_ && _) in H2; cbn [rbind] in H2; [|discriminate]. 
  destruct (lto l) as [p0 b0|p0 b0 ls0] eqn:El; [discriminate|].
  assert (X : E = [] \/ exists E' y, E = E' ++ [y]) by (destruct E as [|z E]; [now left|right; destruct (exists_last (l := z :: E)) as (E' & y & ->); [discriminate|eauto]]).
  destruct X as [-> |(E' & y & ->)].
  - rewrite app_nil_r, EB in HE. subst ls. right. exists B, l, (make_link [] (GetDagNode fl)). split; [reflexivity|]. split; [intros z Hz; apply L6, in_or_app; now left|]. split; [apply L6, in_or_app; right; now left|].
    destruct (Hls l ltac:(apply in_or_app; right; now left)) as (cs & Hf). rewrite El in Hf |- *. destruct (open_fine _ _ _ _ _ Hf H2) as (Hfi & Hl0). pose proof (IH _ _ _ _ _ Hfi E3) as X. rewrite Hl0 in X.
    apply ext_kept. cbn [make_link lto node_links]. unfold Commit in H5. destruct (GetBytes (f_file n3)) as [b3| | |]; try discriminate. cbn [rbind] in H5. injection H5 as <-.
    eapply ext_incl; [exact X|]. exact (seal_incl (GetDagNode (mkFsn (f_prefix n3) b3 (f_links n3) (f_file n3)))).
  - left. rewrite EB, app_assoc in HE. apply app_inj_tail in HE as (-> & _). intros z Hz. apply L6, in_or_app. left. apply in_or_app. now left.
Qed.

Lemma rec_ext fuel : forall rf mx n d n' d', fine n -> appendRec fuel rf mx (n, d) = (Ok tt, (n', d')) -> ext (f_links n) (f_links n').
Proof.
  assert (Same : forall n, ext (f_links n) (f_links n)) by (intros n; left; apply incl_refl).
  induction rf as [|rf IH]; intros mx n d n' d' (Hs & Hf) H; cbn [appendRec] in H; (destruct (mx =? 0); [apply ret_ok in H as (_ & H); injection H as -> ->; apply Same|]);
    apply bind_ok in H as (dn & [n1 d1] & H1 & H); apply on_db_ok in H1 as (_ & ->); (destruct dn; [apply ret_ok in H as (_ & H); injection H as -> ->; apply Same|]); [discriminate|].
  apply bind_ok in H as (n0 & s1 & H2 & H). apply get_fsn_ok in H2 as (-> & ->). apply bind_ok in H as (d0 & s1 & H2 & H). apply get_db_ok in H2 as (-> & ->). cbn [fst snd] in H.
  destruct (trickleDepthInfo _ _) as [dp0 rp]. apply bind_ok in H as (dp & [n2 d2] & H2 & H).
  assert (X : longer n n2 /\ synced n2).
  { destruct (dp0 =? 0); [|apply ret_ok in H2 as (_ & H2); injection H2 as -> ->; split; [apply longer_refl|exact Hs]].
    apply bind_ok in H2 as ([] & [n3 d3] & H3 & H2). apply ret_ok in H2 as (_ & H2). injection H2 as -> ->. split; [eapply layer_longer, H3|eapply layer_synced; eassumption]. }
  destruct X as ((E & HE & HU) & Hs2). destruct (dp =? mx); [apply ret_ok in H as (_ & H); injection H as -> ->; left; rewrite HE; intros l Hl; apply in_or_app; now left|].
  apply bind_ok in H as ([] & [n4 d4] & H4 & H). pose proof (last_ext _ _ _ _ _ _ _ _ _ _ IH Hs2 HE Hf H4) as X.
  apply bind_ok in H as (dn & [n5 d5] & H5 & H). apply on_db_ok in H5 as (_ & ->). cbn zeta in H.
  eapply ext_incl; [exact X|]. apply longer_incl. destruct (_ <? mx); [eapply depth_loop_longer, H|apply ret_ok in H as (_ & H); injection H as -> ->; apply longer_refl].
Qed.

Lemma append_kept fuel rf dbp fi spl base w r base' w' cs : file_dag base cs -> trickle_append fuel rf dbp fi spl base w = (Ok r, base', w') -> kept base r.
Proof.
  intros Hb H. apply append_inv in H as [(e & _ & H & _)|(d & d' & _ & L & _)]; [discriminate|]. unfold Append in L. destruct base as [p b|p b ls]; [discriminate|].
  destruct (NewFSNFromDag p b ls) as [n| | |] eqn:En; try discriminate. destruct (open_fine _ _ _ _ _ Hb En) as ((Hs & Hf) & Hl).
  destruct (append_body fuel rf (n, d)) as [[[]| | |] [n' d1]] eqn:H; try discriminate. injection L as <- _ _. apply ext_kept. cbn [GetDagNode node_links]. rewrite <- Hl. clear - Hs Hf H. revert H.
  unfold append_body. intros H. apply bind_ok in H as (n0 & s1 & H2 & H). apply get_fsn_ok in H2 as (-> & ->). apply bind_ok in H as (d0 & s1 & H2 & H). apply get_db_ok in H2 as (-> & ->). cbn [fst snd] in H.
  destruct (trickleDepthInfo _ _) as [dp0 rp]. apply bind_ok in H as (o & [n2 d2] & H2 & H).
  assert (X : longer n n2 /\ synced n2).
  { destruct (dp0 =? 0); [|apply ret_ok in H2 as (_ & H2); injection H2 as -> ->; split; [apply longer_refl|exact Hs]].
    apply bind_ok in H2 as ([] & [n3 d3] & H3 & H2). apply bind_ok in H2 as (dn & [n5 d5] & H5 & H2). apply on_db_ok in H5 as (_ & ->). apply ret_ok in H2 as (_ & H2). injection H2 as -> ->. split; [eapply layer_longer, H3|eapply layer_synced; eassumption]. }
  destruct X as ((E & HE & HU) & Hs2). destruct o as [dp|]; [|apply ret_ok in H as (_ & H); injection H as -> ->; left; rewrite HE; intros l Hl; apply in_or_app; now left].
  apply bind_ok in H as ([] & [n4 d4] & H4 & H). pose proof (last_ext _ _ _ _ _ _ _ _ _ _ (rec_ext fuel rf) Hs2 HE Hf H4) as X.
  apply bind_ok in H as (dn & [n5 d5] & H5 & H). apply on_db_ok in H5 as (_ & ->). cbn zeta in H. apply bind_ok in H as ([] & [n6 d6] & H6 & H).
  eapply ext_incl; [exact X|]. eapply incl_tran; [eapply longer_incl, depth_loop_longer, H6|]. apply commit_longer in H. rewrite H. apply incl_refl.
Qed.

(** ** Witnesses *)

Definition three : list bytes := [[x61]; [x62]; [x63]].
Definition absent (r m : node) : bool := negb (existsb (fun m' => if key_dec (key_of m) (key_of m') then true else false) (reached_list r)).
Lemma absent_ok r m : absent r m = true -> ~ reach r m.
Proof. unfold absent. intros H Hr. apply negb_true_iff in H. apply reached_list_iff in Hr. assert (X : existsb (fun m' => if key_dec (key_of m) (key_of m') then true else false) (reached_list r) = true); [|congruence]. apply existsb_exists. exists m. split; [exact Hr|]. destruct (key_dec _ _); congruence. Qed.
Definition shop : world := snd (trickle_import 9 (two_links false) false (map EvData three) astore).
Lemma ok_some (x : res node * node * world) : match x with (Ok _, _, _) => true | _ => false end = true -> exists r b w', x = (Ok r, b, w').
Proof. destruct x as [[[r| | |] b] w']; try discriminate. eauto. Qed.
