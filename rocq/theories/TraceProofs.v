(** What is cut off a file leaves no trace. *)
From Verif Require Import Base Pb PbProofs FSNode FSNodeProofs Dag DagProofs Builder Balanced Trickle Importer Reader Modifier
  SpecFile SpecAppend SpecReader SpecModifier BuilderProofs BalancedProofs TrickleProofs ImportProofs AppendProofs AppendRun ReaderProofs GrowProofs ModifierProofs
  TruncateProofs ReaderWitness ModifierRun ModifierFacts DetProofs SpecShare ShareProofs SpecRewrite RewriteProofs ShortenProofs.

Lemma ztake_ztake {A} a b (l : list A) : a <= b -> ztake a (ztake b l) = ztake a l.
Proof. intros H. unfold ztake. rewrite firstn_firstn. f_equal. lia. Qed.

(** Two trees that are the same up to the byte [s], which both have. *)
Inductive pre : Z -> node -> node -> Prop :=
| pre_raw s p d1 d2 : ztake s d1 = ztake s d2 -> pre s (NRaw p d1) (NRaw p d2)
| pre_leaf s p b1 b2 f1 f2 : FSNodeFromBytes b1 = Ok f1 -> FSNodeFromBytes b2 = Ok f2 -> option_map (ztake s) (d_data f1) = option_map (ztake s) (d_data f2) -> pre s (NProto p b1 []) (NProto p b2 [])
| pre_node s p b1 b2 f1 f2 A ca x y B1 B2 cx cy : FSNodeFromBytes b1 = Ok f1 -> FSNodeFromBytes b2 = Ok f2 -> resized f1 [] = resized f2 [] ->
    Forall2 file_dag (map lto A) ca -> zlen (concat (concat ca)) <= s -> file_dag (lto x) cx -> file_dag (lto y) cy -> s - zlen (concat (concat ca)) < zlen (concat cx) -> s - zlen (concat (concat ca)) < zlen (concat cy) ->
    pre (s - zlen (concat (concat ca))) (lto x) (lto y) -> pre s (NProto p b1 (A ++ x :: B1)) (NProto p b2 (A ++ y :: B2)).

(** The child with the byte [s]. *)
Lemma child_at : forall ls css s, Forall2 file_dag (map lto ls) css -> 0 <= s < zlen (concat (concat css)) ->
  exists A x B ca cx cb, ls = A ++ x :: B /\ css = ca ++ cx :: cb /\ Forall2 file_dag (map lto A) ca /\ file_dag (lto x) cx /\ Forall2 file_dag (map lto B) cb /\ zlen (concat (concat ca)) <= s < zlen (concat (concat ca)) + zlen (concat cx).
Proof.
  induction ls as [|l ls IH]; intros css s F Hs; cbn [map] in F; inversion F as [|? c ? css' Hc F']; subst; [cbn [concat] in Hs; change (zlen (@nil byte)) with 0 in Hs; lia|].
  destruct (Z_lt_le_dec s (zlen (concat c))) as [H|H].
  - exists [], l, ls, [], c, css'. split; [reflexivity|]. split; [reflexivity|]. split; [constructor|]. split; [exact Hc|]. split; [exact F'|]. cbn [concat]. change (zlen (@nil byte)) with 0. lia.
  - cbn [concat] in Hs. rewrite concat_app, zlen_app in Hs. destruct (IH css' (s - zlen (concat c)) F' ltac:(unfold bytes in *; lia)) as (A & x & B & ca & cx & cb & -> & -> & H1 & H2 & H3 & H4).
    exists (l :: A), x, B, (c :: ca), cx, cb. split; [reflexivity|]. split; [reflexivity|]. split; [constructor; assumption|]. split; [exact H2|]. split; [exact H3|]. cbn [concat]. rewrite concat_app, zlen_app. unfold bytes in *; lia.
Qed.
Lemma dag_total (ca : list (list bytes)) cx cb : zlen (concat (concat (ca ++ cx :: cb))) = zlen (concat (concat ca)) + zlen (concat cx) + zlen (concat (concat cb)).
Proof. rewrite concat_app. cbn [concat]. rewrite !concat_app, !zlen_app. unfold bytes in *. lia. Qed.

Lemma pre_refl : forall n s cs, file_dag n cs -> 0 <= s < zlen (concat cs) -> pre s n n.
Proof.
  induction n as [p d|p x ls IH] using DagProofs.node_ind'; intros s cs F Hs; [now apply pre_raw|].
  inversion F as [|? ? fs D|? ? fs ? css Hne M D _ W FF _ _]; subst; [eapply pre_leaf; eauto|].
  destruct (child_at _ _ _ FF Hs) as (A & z & B & ca & cx & cb & -> & -> & HA & Hx & _ & Hb). eapply (pre_node _ _ _ _ fs fs _ ca); [exact D|exact D|reflexivity|exact HA|lia|exact Hx|exact Hx|lia|lia|].
  apply Forall_app in IH as (_ & IH). inversion IH as [|? ? IHz _]; subst. eapply IHz; [exact Hx|lia].
Qed.

(** Cutting them there gives the same. *)
Lemma node_cut fuel p b f A y B ca cy s w n' w' : FSNodeFromBytes b = Ok f -> getData f = [] -> Forall2 file_dag (map lto A) ca -> file_dag (lto y) cy -> zlen (concat (concat ca)) <= s < zlen (concat (concat ca)) + zlen (concat cy) ->
  zlen (concat (concat ca)) + zlen (concat cy) < 9223372036854775808 -> dagTruncate fuel (NProto p b (A ++ y :: B)) s w = (Ok n', w') ->
  exists fu nc w0 w1 d, fuel = S fu /\ dagTruncate fu (lto y) (s - zlen (concat (concat ca))) w0 = (Ok nc, w1) /\ GetBytes (AddBlockSize (s - zlen (concat (concat ca))) (resized f ca)) = Ok d /\
    n' = seal (NProto p d (A ++ [make_link [] nc])).
Proof.
  intros D W HA Hy Hs Hl E. destruct fuel as [|fu].
  { cbn [dagTruncate node_links] in E. destruct (A ++ y :: B) eqn:El; [now apply mid_not_nil in El|]. rewrite D in E. discriminate. }
  cbn [dagTruncate node_links] in E. destruct (A ++ y :: B) as [|l0 r0] eqn:El; [now apply mid_not_nil in El|]. rewrite <- El in *. clear l0 r0 El. rewrite D, (resized_nil f W) in E.
  destruct (trunc_links (dagTruncate fu) (A ++ y :: B) 0 0 s (resized f []) w) as [[r|e| |] w1] eqn:Et; try discriminate.
  pose proof (zlen_nonneg (concat (concat ca))) as K.
  destruct (trunc_links_cut (dagTruncate fu) A y B _ Hy ca 0 0 s f [] w r w1 HA) as (nc & -> & w0 & Er); [lia|unfold bytes in *; lia|unfold bytes in *; lia|exact Et|]. cbn [app Nat.add] in *. rewrite Z.sub_0_r in *.
  destruct (dserv_add nc None w1) as [[u|e| |] w2]; try discriminate. destruct (GetBytes _) as [d|e| |] eqn:Ed; try discriminate. injection E as <- _.
  exists fu, nc, w0, w1, d. split; [reflexivity|]. split; [exact Er|]. split; [first [exact Ed|reflexivity]|]. rewrite firstn_app, firstn_all, Nat.sub_diag. cbn [firstn]. now rewrite app_nil_r.
Qed.
Lemma resized_same f1 f2 css : resized f1 [] = resized f2 [] -> resized f1 css = resized f2 css.
Proof. intros H. destruct f1, f2. unfold resized in *. cbn in H. injection H; intros; subst. reflexivity. Qed.

Lemma leaf_cut_is fuel p b f s w n' w' : FSNodeFromBytes b = Ok f -> dagTruncate fuel (NProto p b []) s w = (Ok n', w') -> exists b', WrapData (option_map (ztake s) (d_data f)) = Ok b' /\ n' = NProto p b' [].
Proof. intros D E. destruct fuel; cbn [dagTruncate node_links] in E; rewrite D in E; (destruct (_ <? _); [discriminate|]); destruct (WrapData _) as [b'| | |]; try discriminate; injection E as <- _; eauto. Qed.
Lemma raw_cut_is fuel p d s w n' w' : dagTruncate fuel (NRaw p d) s w = (Ok n', w') -> n' = NRaw p (ztake s d).
Proof. intros E. destruct fuel; cbn [dagTruncate node_links] in E; (destruct (_ <? _); [discriminate|]); now injection E as <- _. Qed.

Lemma pre_same s n1 n2 : pre s n1 n2 -> forall cs1 cs2 fu1 fu2 w1 w2 r1 r2 w1' w2', file_dag n1 cs1 -> file_dag n2 cs2 -> zlen (concat cs1) < 9223372036854775808 -> zlen (concat cs2) < 9223372036854775808 ->
  dagTruncate fu1 n1 s w1 = (Ok r1, w1') -> dagTruncate fu2 n2 s w2 = (Ok r2, w2') -> r1 = r2.
Proof.
  induction 1 as [s p d1 d2 E|s p b1 b2 f1 f2 D1 D2 E|s p b1 b2 f1 f2 A ca x y B1 B2 cx cy D1 D2 Er HA Hs Fx Fy Hx Hy _ IH]; intros cs1 cs2 fu1 fu2 w1 w2 r1 r2 w1' w2' F1 F2 L1 L2 E1 E2.
  - apply raw_cut_is in E1, E2. congruence.
  - destruct (leaf_cut_is _ _ _ _ _ _ _ _ D1 E1) as (b1' & W1 & ->), (leaf_cut_is _ _ _ _ _ _ _ _ D2 E2) as (b2' & W2 & ->). rewrite E in W1. congruence.
  - assert (G : forall b f z B cs, FSNodeFromBytes b = Ok f -> file_dag (NProto p b (A ++ z :: B)) cs -> zlen (concat cs) < 9223372036854775808 -> forall cz, file_dag (lto z) cz -> getData f = [] /\ zlen (concat (concat ca)) + zlen (concat cz) < 9223372036854775808).
    { intros b f z B cs D F L cz Fz. inversion F as [|? ? g D'|? ? g ? css Hne M D' _ W FF _ _]; subst; [match goal with K : [] = A ++ _ |- _ => symmetry in K; now apply mid_not_nil in K end|]. rewrite D in D'. injection D' as <-. split; [exact W|].
      rewrite map_app in FF. apply Forall2_app_l in FF as (ca' & cr & -> & FA & FR). assert (ca' = ca) as -> by (eapply Forall2_dag_fun; eassumption). cbn [map] in FR. inversion FR as [|? cz' ? cb Fz' _]; subst.
      assert (cz' = cz) as -> by (eapply file_dag_fun; eassumption). rewrite dag_total in L. pose proof (zlen_nonneg (concat (concat cb))). unfold bytes in *. lia. }
    destruct (G _ _ _ _ _ D1 F1 L1 _ Fx) as (W1 & M1), (G _ _ _ _ _ D2 F2 L2 _ Fy) as (W2 & M2). pose proof (zlen_nonneg (concat (concat ca))) as K.
    destruct (node_cut fu1 p b1 f1 A x B1 ca cx s w1 r1 w1' D1 W1 HA Fx ltac:(lia) M1 E1) as (fa & nc1 & wa & wb & d1 & _ & X1 & Y1 & ->).
    destruct (node_cut fu2 p b2 f2 A y B2 ca cy s w2 r2 w2' D2 W2 HA Fy ltac:(lia) M2 E2) as (fb & nc2 & wc & wd & d2 & _ & X2 & Y2 & ->).
    rewrite (resized_same f1 f2 ca Er) in Y1. assert (d1 = d2) as -> by congruence. do 3 f_equal. f_equal. unfold make_link. assert (nc1 = nc2) as ->; [|reflexivity].
    refine (IH _ _ _ _ _ _ _ _ _ _ Fx Fy _ _ X1 X2); unfold bytes in *; lia.
Qed.

(** ** Cutting twice *)

Lemma pre_cut fuel : forall n cs a b w n' w', (height n <= fuel)%nat -> file_dag n cs -> zlen (concat cs) < 9223372036854775808 -> 0 <= b < a -> a < zlen (concat cs) -> dagTruncate fuel n a w = (Ok n', w') -> pre b n n'.
Proof.
  induction fuel as [|fu IH]; intros n cs a b w n' w' Hh F L Hb Ha E.
  - destruct n as [p d|p x ls]; [|cbn in Hh; lia]. apply raw_cut_is in E as ->. apply pre_raw. symmetry. apply ztake_ztake. lia.
  - destruct n as [p d|p x ls]; [apply raw_cut_is in E as ->; apply pre_raw; symmetry; apply ztake_ztake; lia|].
    inversion F as [|? ? fs D|? ? fs ? css Hne M D _ W FF _ _]; subst.
    + destruct (leaf_cut_is _ _ _ _ _ _ _ _ D E) as (b' & Wr & ->). destruct (WrapData_decode (option_map (ztake a) (d_data fs))) as (b2 & E2 & Hd).
      { cbn [concat] in *. rewrite app_nil_r in *. unfold getData in *. destruct (d_data fs) as [u|]; cbn [option_map obytes] in *; [|unfold two64; cbn; lia]. rewrite zlen_ztake by lia. unfold two64. lia. }
      rewrite Wr in E2. injection E2 as <-. eapply pre_leaf; [exact D|exact Hd|]. cbn. destruct (d_data fs); cbn [option_map]; [|reflexivity]. rewrite ztake_ztake by lia. reflexivity.
    + destruct (child_at _ _ _ FF (conj (Z.lt_le_incl _ _ (Z.le_lt_trans _ _ _ (proj1 Hb) (proj2 Hb))) Ha)) as (A & z & B & ca & cx & cb & -> & -> & HA & Hx & HB & Hs). rewrite dag_total in L, Ha. pose proof (zlen_nonneg (concat (concat cb))) as K1. pose proof (zlen_nonneg (concat (concat ca))) as K2.
      destruct (node_cut _ p x fs A z B ca cx a w n' w' D W HA Hx Hs ltac:(unfold bytes in *; lia) E) as (fu' & nc & w0 & w1 & d & Ef & X & Y & ->). injection Ef as <-.
      assert (Hz : (height (lto z) <= fu)%nat) by (assert (I : In z (A ++ z :: B)) by (apply in_or_app; right; now left); pose proof (height_child p x _ z I); lia).
      pose proof (dagTruncate_spec fu (lto z) cx (a - zlen (concat (concat ca))) w0 Hz Hx ltac:(lia) ltac:(unfold bytes in *; lia)) as (_ & T). rewrite X in T. cbn [fst] in T. destruct (tr_dag _ _ _ _ _ _ T) as (cs' & T1 & T2).
      assert (Es : seal nc = nc) by (eapply file_dag_seal, T1).
      assert (Hse : seal (NProto p d (A ++ [make_link [] nc])) = NProto p d (A ++ [make_link [] nc])).
      { cbn [seal]. rewrite lsort_unnamed; [reflexivity|]. apply Forall_app in M as (M & _). apply Forall_app. split; [exact M|]. constructor; [reflexivity|constructor]. }
      rewrite Hse. pose proof (unmarshal_good x fs D) as [Hg _].
      rewrite (resized_add fs ca cs' (a - zlen (concat (concat ca)))) in Y by (rewrite ?T2, ?zlen_ztake; unfold bytes in *; lia).
      assert (Dd : FSNodeFromBytes d = Ok (resized fs (ca ++ [cs']))) by (eapply unmarshal_marshal; [now apply resized_good|exact Y]).
      assert (Rr : resized fs [] = resized (resized fs (ca ++ [cs'])) []) by (destruct fs; reflexivity).
      destruct (Z_lt_le_dec b (zlen (concat (concat ca)))) as [Hc|Hc].
      * destruct (child_at _ _ _ HA (conj (proj1 Hb) Hc)) as (A0 & v & A1 & c0 & cv & c1 & -> & -> & H0 & Hv & H1 & Hr). rewrite <- !app_assoc. cbn [app].
        eapply (pre_node _ _ _ _ fs _ _ c0 v v); [exact D|exact Dd|exact Rr|exact H0|lia|exact Hv|exact Hv|lia|lia|]. eapply pre_refl; [exact Hv|lia].
      * assert (Hl' : zlen (concat cs') = a - zlen (concat (concat ca))) by (rewrite T2, zlen_ztake; unfold bytes in *; lia).
        eapply (pre_node _ _ _ _ fs _ _ ca z (make_link [] nc) B [] cx cs'); [exact D|exact Dd|exact Rr|exact HA|lia|exact Hx|cbn [make_link lto]; rewrite Es; exact T1|lia|lia|]. cbn [make_link lto]. rewrite Es.
        refine (IH _ _ _ _ _ _ _ Hz Hx _ _ _ X); unfold bytes in *; lia.
Qed.

Lemma truncate_id split n cs w n' s' : file_dag n cs -> zlen (concat cs) < 9223372036854775808 -> truncate_to split (zlen (concat cs)) n w = (Ok n', s') -> n' = n.
Proof.
  intros Hcs Hl. unfold truncate_to. unfold mTruncate. unfold bind at 1. rewrite Sync_none by reflexivity. unfold bind at 1. pose proof (zlen_nonneg (concat cs)) as K.
  assert (S : mSize (NewDagModifier n, w) = (Ok (zlen (concat cs)), (NewDagModifier n, w))).
  { unfold mSize, bind, cur_node, lift, get_mod. cbn [fst snd NewDagModifier m_node m_buf]. rewrite (fileSize_dag n cs Hcs) by exact Hl. cbn [fst m_buf]. unfold ret. now rewrite i64_small by (unfold two63, bytes in *; lia). }
  rewrite S, Z.eqb_refl. cbn [ret]. unfold mGetNode, bind. rewrite Sync_none by reflexivity. cbn [fst NewDagModifier m_node]. intros E. congruence.
Qed.
Lemma truncate_pre split s n1 n2 cs1 cs2 w1 w2 r1 r2 s1 s2 : file_dag n1 cs1 -> file_dag n2 cs2 -> zlen (concat cs1) < 9223372036854775808 -> zlen (concat cs2) < 9223372036854775808 -> 0 <= s < zlen (concat cs1) -> 0 <= s < zlen (concat cs2) ->
  pre s n1 n2 -> truncate_to split s n1 w1 = (Ok r1, s1) -> truncate_to split s n2 w2 = (Ok r2, s2) -> r1 = r2.
Proof.
  intros F1 F2 L1 L2 H1 H2 Hp E1 E2. destruct (truncate_to_inv _ _ _ _ _ _ _ F1 L1 H1 E1) as (w1' & X1). destruct (truncate_to_inv _ _ _ _ _ _ _ F2 L2 H2 E2) as (w2' & X2).
  exact (pre_same _ _ _ Hp _ _ _ _ _ _ _ _ _ _ F1 F2 L1 L2 X1 X2).
Qed.
Lemma truncate_steps : forall split n c a b w1 w2 w3 n1 n2 n3 s1 s2 s3, file_content n c -> zlen c < 9223372036854775808 -> 0 <= b <= a -> a <= zlen c ->
  truncate_to split a n w1 = (Ok n1, s1) -> truncate_to split b n1 w2 = (Ok n2, s2) -> truncate_to split b n w3 = (Ok n3, s3) -> n2 = n3.
Proof.
  intros split n c a b w1 w2 w3 n1 n2 n3 s1 s2 s3 (cs & F & ->) L Hb Ha E1 E2 E3.
  assert (Dt : forall s m cm wa wb ra rb sa sb, file_dag m cm -> zlen (concat cm) < 9223372036854775808 -> 0 <= s <= zlen (concat cm) -> truncate_to split s m wa = (Ok ra, sa) -> truncate_to split s m wb = (Ok rb, sb) -> ra = rb).
  { intros s m cm wa wb ra rb sa sb Fm Lm Hs Ea Eb. destruct (Z.eq_dec s (zlen (concat cm))) as [->|Hn]; [rewrite (truncate_id _ _ _ _ _ _ Fm Lm Ea), (truncate_id _ _ _ _ _ _ Fm Lm Eb); reflexivity|].
    eapply (truncate_pre split s m m cm cm); eauto; try lia. eapply pre_refl; [exact Fm|lia]. }
  destruct (Z.eq_dec a (zlen (concat cs))) as [Ea|Ea].
  { rewrite Ea in E1. rewrite (truncate_id _ _ _ _ _ _ F L E1) in E2. eapply (Dt b n cs); eauto. lia. }
  destruct (truncate_to_inv split a n cs w1 n1 s1 F L ltac:(unfold bytes in *; lia) E1) as (w1' & X1).
  pose proof (dagTruncate_spec (weight n) n cs a w1 (height_weight n) F ltac:(unfold bytes in *; lia) L) as (_ & T). rewrite X1 in T. cbn [fst] in T. destruct (tr_dag _ _ _ _ _ _ T) as (cs1 & F1 & C1).
  assert (Z1 : zlen (concat cs1) = a) by (rewrite C1, zlen_ztake; unfold bytes in *; lia).
  destruct (Z.eq_dec a b) as [<-|Hne].
  - rewrite <- Z1 in E2 at 1. rewrite (truncate_id _ _ _ _ _ _ F1 ltac:(unfold bytes in *; lia) E2). refine (Dt a n cs _ _ _ _ _ _ F L _ E1 E3). unfold bytes in *; lia.
  - symmetry. eapply (truncate_pre split b n n1 cs cs1); eauto; try (unfold bytes in *; lia). exact (pre_cut (weight n) n cs a b w1 n1 w1' (height_weight n) F L ltac:(lia) ltac:(unfold bytes in *; lia) X1).
Qed.

(** ** Files of the same shape *)

Lemma shape_sizes : forall ls ls' css css', Forall2 same_shape (map lto ls) (map lto ls') -> Forall2 file_dag (map lto ls) css -> Forall2 file_dag (map lto ls') css' -> zlen (concat (concat css)) = zlen (concat (concat css')).
Proof.
  induction ls as [|l ls IH]; intros [|l' ls'] css css' S F F'; cbn [map] in *; inversion S; subst; inversion F; subst; inversion F'; subst; [reflexivity|].
  cbn [concat]. rewrite !concat_app, !zlen_app. erewrite IH; [|eassumption..]. f_equal. eapply shape_size; eassumption.
Qed.
Lemma links_det : forall ls l1 l2 css css1 css2, (forall l, In l ls -> canonical_leaves (lto l)) -> map lname ls = map lname l1 -> map lname ls = map lname l2 -> map lsize ls = map lsize l1 -> map lsize ls = map lsize l2 ->
  Forall2 same_shape (map lto ls) (map lto l1) -> Forall2 same_shape (map lto ls) (map lto l2) -> Forall2 file_dag (map lto ls) css -> Forall2 file_dag (map lto l1) css1 -> Forall2 file_dag (map lto l2) css2 ->
  concat (concat css1) = concat (concat css2) -> l1 = l2.
Proof.
  induction ls as [|l ls IH]; intros [|x l1] [|y l2] css css1 css2 Hc N1 N2 Z1 Z2 S1 S2 F F1 F2 E; cbn [map] in *; try discriminate; [reflexivity|].
  inversion S1 as [|? ? ? ? U1 U2]; subst. inversion S2 as [|? ? ? ? V1 V2]; subst. inversion F as [|? c ? r G1 G2]; subst. inversion F1 as [|? c1 ? r1 G3 G4]; subst. inversion F2 as [|? c2 ? r2 G5 G6]; subst.
  injection N1 as N1 N1'. injection N2 as N2 N2'. injection Z1 as Z1 Z1'. injection Z2 as Z2 Z2'. cbn [concat] in E. rewrite !concat_app in E.
  destruct (AppendSame.app_inj_len _ _ _ _ E) as (E1 & E2).
  { assert (X1 : zlen (concat c) = zlen (concat c1)) by exact (shape_size _ _ _ _ U1 G1 G3). assert (X2 : zlen (concat c) = zlen (concat c2)) by exact (shape_size _ _ _ _ V1 G1 G5). unfold zlen in X1, X2. unfold bytes in *. lia. }
  f_equal.
  - assert (T : lto x = lto y) by (refine (shape_det (lto l) _ _ c1 c2 (Hc l (or_introl eq_refl)) U1 V1 G3 G5 (ex_intro _ c G1) E1)). destruct x, y. cbn in *. congruence.
  - refine (IH l1 l2 r r1 r2 (fun k Hk => Hc k (or_intror Hk)) N1' N2' Z1' Z2' U2 V2 G2 G4 G6 E2).
Qed.
Lemma leaf_shape p x f m : same_shape (NProto p x []) m -> FSNodeFromBytes x = Ok f -> exists b data, m = NProto p b [] /\ FSNodeFromBytes b = Ok (set_data data f) /\ (data = None <-> d_data f = None).
Proof.
  intros S D. inversion S as [|? ? b' g data T1 T2 T3 T4 T5|? ? ? ls' Hn Hz HF]; subst.
  - rewrite D in T1. injection T1 as <-. exists b', data. auto.
  - destruct ls'; [|discriminate]. exists x, (d_data f). replace (set_data (d_data f) f) with f by now destruct f. split; [reflexivity|]. split; [exact D|tauto].
Qed.
Lemma map_split {A B} (g : A -> B) : forall a x b l, map g l = a ++ x :: b -> exists a' x' b', l = a' ++ x' :: b' /\ map g a' = a /\ g x' = x /\ map g b' = b.
Proof.
  induction a as [|v a IH]; intros x b [|u l] E; cbn [map app] in E; try discriminate; injection E as E1 E2; subst.
  - exists [], u, l. auto.
  - destruct (IH _ _ _ E2) as (a' & x' & b' & -> & <- & <- & <-). exists (u :: a'), x', b'. auto.
Qed.
(** The parts of a list of links of the shape of another one. *)
Lemma shape_parts A z B ls css : map lname (A ++ z :: B) = map lname ls -> map lsize (A ++ z :: B) = map lsize ls -> Forall2 same_shape (map lto (A ++ z :: B)) (map lto ls) -> Forall2 file_dag (map lto ls) css ->
  exists A' z' B' ca cz cb, ls = A' ++ z' :: B' /\ css = ca ++ cz :: cb /\ map lname A = map lname A' /\ map lsize A = map lsize A' /\ Forall2 same_shape (map lto A) (map lto A') /\ same_shape (lto z) (lto z') /\
    Forall2 file_dag (map lto A') ca /\ file_dag (lto z') cz.
Proof.
  revert ls css. induction A as [|l A IH]; intros [|l' ls] css N Z S F; cbn [map app] in *; try discriminate; inversion S; subst; inversion F as [|? c ? r F1 F2]; subst; injection N as N1 N2; injection Z as Z1 Z2.
  - exists [], l', ls, [], c, r. cbn [map app]. repeat (split; [now auto|]). auto.
  - destruct (IH _ _ N2 Z2 ltac:(eassumption) F2) as (A' & z' & B' & ca & cz & cb & -> & -> & E1 & E2 & E3 & E4 & E5 & E6). exists (l' :: A'), z', B', (c :: ca), cz, cb. cbn [map app]. split; [reflexivity|]. split; [reflexivity|]. split; [now rewrite N1, E1|]. split; [now rewrite Z1, E2|]. split; [now constructor|]. split; [exact E4|]. split; [now constructor|exact E6].
Qed.

Lemma pre_shapes : forall n n1 n2 cs cs1 cs2 s, canonical_leaves n -> same_shape n n1 -> same_shape n n2 -> file_dag n cs -> file_dag n1 cs1 -> file_dag n2 cs2 -> 0 <= s < zlen (concat cs) -> ztake s (concat cs1) = ztake s (concat cs2) -> pre s n1 n2.
Proof.
  induction n as [p d|p x ls IH] using DagProofs.node_ind'; intros n1 n2 cs cs1 cs2 s Hc S1 S2 F F1 F2 Hs E.
  - inversion S1; subst. inversion S2; subst. inversion F1; subst. inversion F2; subst. cbn [concat] in E. rewrite !app_nil_r in E. now apply pre_raw.
  - inversion F as [|? ? fs D|? ? fs ? css Hne M D _ W FF _ _]; subst.
    + destruct (leaf_shape _ _ _ _ S1 D) as (b1 & da & -> & D1 & I1), (leaf_shape _ _ _ _ S2 D) as (b2 & db & -> & D2 & I2). eapply pre_leaf; [exact D1|exact D2|]. cbn [set_data d_data].
      inversion F1 as [|? ? g1 G1|]; subst; [|congruence]. inversion F2 as [|? ? g2 G2|]; subst; [|congruence]. rewrite D1 in G1. injection G1 as <-. rewrite D2 in G2. injection G2 as <-.
      cbn [concat] in E. rewrite !app_nil_r in E. unfold getData in E. cbn [set_data d_data] in E. destruct da as [u|], db as [v|]; cbn [obytes option_map] in *; [now rewrite E| | |reflexivity].
      * exfalso. assert (X : d_data fs = None) by now apply I2. apply I1 in X. discriminate.
      * exfalso. assert (X : d_data fs = None) by now apply I1. apply I2 in X. discriminate.
    + destruct (child_at _ _ _ FF Hs) as (A & z & B & ca & cx & cb & -> & -> & HA & Hx & _ & Hb).
      assert (T : forall m cm, same_shape (NProto p x (A ++ z :: B)) m -> file_dag m cm -> exists l cl, m = NProto p x l /\ cm = concat cl /\ map lname (A ++ z :: B) = map lname l /\ map lsize (A ++ z :: B) = map lsize l /\ Forall2 same_shape (map lto (A ++ z :: B)) (map lto l) /\ Forall2 file_dag (map lto l) cl).
      { intros m cm S G. inversion S as [|? ? b' g data T1 T2 T3 T4 T5|? ? ? l Hn Hz HF]; subst; [exfalso; destruct A; discriminate|]. inversion G as [|? ? g Dg|? ? g ? cl Y1 Y2 Y3 Y4 Y5 Y6 Y7 Y8]; subst; [exfalso; destruct A; discriminate|]. exists l, cl. split; [reflexivity|]. split; [reflexivity|]. split; [exact Hn|]. split; [exact Hz|]. split; [exact HF|eassumption]. }
      destruct (T _ _ S1 F1) as (l1 & cl1 & -> & -> & N1 & Z1 & SS1 & FF1), (T _ _ S2 F2) as (l2 & cl2 & -> & -> & N2 & Z2 & SS2 & FF2). clear T.
      destruct (shape_parts _ _ _ _ _ N1 Z1 SS1 FF1) as (A1 & z1 & B1 & ca1 & cz1 & cb1 & -> & -> & P1 & P2 & P3 & P4 & P5 & P6). destruct (shape_parts _ _ _ _ _ N2 Z2 SS2 FF2) as (A2 & z2 & B2 & ca2 & cz2 & cb2 & -> & -> & Q1 & Q2 & Q3 & Q4 & Q5 & Q6).
      pose proof (shape_sizes _ _ _ _ P3 HA P5) as L1. pose proof (shape_sizes _ _ _ _ Q3 HA Q5) as L2. pose proof (shape_size _ _ _ _ P4 Hx P6) as M1. pose proof (shape_size _ _ _ _ Q4 Hx Q6) as M2.
      assert (X : forall (c : list (list bytes)) cz ct, zlen (concat (concat ca)) = zlen (concat (concat c)) -> zlen (concat cx) = zlen (concat cz) -> ztake s (concat (concat (c ++ cz :: ct))) = concat (concat c) ++ ztake (s - zlen (concat (concat ca))) (concat cz)).
      { intros c cz ct X1 X2. rewrite concat_app. cbn [concat]. rewrite !concat_app. rewrite ztake_app_r by (unfold bytes in *; lia). f_equal. rewrite <- X1. apply ztake_app_l. unfold bytes in *; lia. }
      rewrite (X _ _ _ L1 M1), (X _ _ _ L2 M2) in E. destruct (AppendSame.app_inj_len _ _ _ _ E) as (E1 & E2); [unfold zlen in L1, L2; unfold bytes in *; lia|].
      assert (A1 = A2) as ->.
      { refine (links_det A A1 A2 ca ca1 ca2 _ P1 Q1 P2 Q2 P3 Q3 HA P5 Q5 E1). intros l Hl. eapply canonical_child; [exact Hc|]. cbn [node_links]. apply in_or_app. now left. }
      assert (Hz : canonical_leaves (lto z)) by (eapply canonical_child; [exact Hc|]; cbn [node_links]; apply in_or_app; right; now left).
      apply Forall_app in IH as (_ & IH). inversion IH as [|? ? IHz _]; subst.
      eapply (pre_node _ _ _ _ fs fs _ ca1 z1 z2 B1 B2 cz1 cz2); [exact D|exact D|reflexivity|exact P5|lia|exact P6|exact Q6|lia|lia|]. rewrite <- L1. apply (IHz _ _ cx cz1 cz2); auto. lia.
Qed.

(** ** Statements *)

Lemma truncate_kept_only : forall split wbsize n c ops1 ops2 n1 n2 s w1 w2 r1 r2 s1 s2, chunker_ok split -> file_content n c -> canonical_leaves n -> zlen c < 9223372036854775808 -> inside (zlen c) ops1 -> inside (zlen c) ops2 ->
  overwritten split wbsize n ops1 n1 -> overwritten split wbsize n ops2 n2 -> 0 <= s <= zlen c -> ztake s (puts c ops1) = ztake s (puts c ops2) ->
  truncate_to split s n1 w1 = (Ok r1, s1) -> truncate_to split s n2 w2 = (Ok r2, s2) -> r1 = r2.
Proof.
  intros split wbsize n c ops1 ops2 n1 n2 s w1 w2 r1 r2 s1 s2 Hs Hf Hk Hc I1 I2 H1 H2 Hss E E1 E2.
  destruct (overwritten_shape _ _ _ _ _ _ Hs Hf Hc I1 H1) as (S1 & (cs1 & D1 & X1)). destruct (overwritten_shape _ _ _ _ _ _ Hs Hf Hc I2 H2) as (S2 & (cs2 & D2 & X2)). destruct Hf as (cs & D & ->). rewrite X1, X2 in E.
  pose proof (shape_size _ _ _ _ S1 D D1) as Z1. pose proof (shape_size _ _ _ _ S2 D D2) as Z2.
  destruct (Z.eq_dec s (zlen (concat cs))) as [->|Hne].
  - rewrite !ztake_all in E by (unfold bytes in *; lia). assert (n1 = n2) as <- by (refine (shape_det n n1 n2 cs1 cs2 Hk S1 S2 D1 D2 (ex_intro _ cs D) E)).
    rewrite Z1 in E1, E2 at 1. rewrite (truncate_id _ _ _ _ _ _ D1 ltac:(unfold bytes in *; lia) E1). symmetry. refine (truncate_id _ _ _ _ _ _ D1 _ E2). unfold bytes in *; lia.
  - refine (truncate_pre split s n1 n2 cs1 cs2 w1 w2 r1 r2 s1 s2 D1 D2 _ _ _ _ _ E1 E2); try (unfold bytes in *; lia). refine (pre_shapes n n1 n2 cs cs1 cs2 s Hk S1 S2 D D1 D2 _ E). unfold bytes in *; lia.
Qed.
Lemma truncate_imports_same : forall split trickle dbp xs ys r1 r2 s w1 w2 n1 n2 s1 s2, imported trickle dbp xs r1 -> imported trickle dbp ys r2 -> map zlen xs = map zlen ys -> zlen (concat xs) < 9223372036854775808 -> 0 <= s <= zlen (concat xs) -> ztake s (concat xs) = ztake s (concat ys) ->
  truncate_to split s r1 w1 = (Ok n1, s1) -> truncate_to split s r2 w2 = (Ok n2, s2) -> n1 = n2.
Proof.
  intros split trickle dbp xs ys r1 r2 s w1 w2 n1 n2 s1 s2 I1 I2 Hm Hl Hs E E1 E2. pose proof (imports_shape _ _ _ _ _ _ Hm I1 I2) as S. destruct (imported_facts _ _ _ _ I1) as (F1 & _). destruct (imported_facts _ _ _ _ I2) as (F2 & _).
  pose proof (shape_size _ _ _ _ S F1 F2) as Z. destruct (Z.eq_dec s (zlen (concat xs))) as [->|Hne].
  - rewrite !ztake_all in E by (unfold bytes in *; lia). assert (r1 = r2) as <- by (refine (shape_det r1 r1 r2 xs ys (imported_canonical _ _ _ _ I1) (same_shape_refl r1) S F1 F2 (ex_intro _ xs F1) E)).
    rewrite (truncate_id _ _ _ _ _ _ F1 ltac:(unfold bytes in *; lia) E1). symmetry. refine (truncate_id _ _ _ _ _ _ F1 _ E2). unfold bytes in *; lia.
  - refine (truncate_pre split s r1 r2 xs ys w1 w2 n1 n2 s1 s2 F1 F2 _ _ _ _ _ E1 E2); try (unfold bytes in *; lia).
    refine (pre_shapes r1 r1 r2 xs xs ys s (imported_canonical _ _ _ _ I1) (same_shape_refl r1) S F1 F1 F2 _ E). unfold bytes in *; lia.
Qed.

(** ** Cases *)

Definition cut_to (a : Z) (n : node) : node := ok_node (fst (truncate_to bytewise a n full)).
Definition is_ok (x : res node * mst) : bool := match fst x with Ok _ => true | _ => false end.
Lemma is_ok_ex x : is_ok x = true -> exists s', x = (Ok (ok_node (fst x)), s').
Proof. destruct x as [[n'| | |] s']; try discriminate. cbn [fst ok_node]. eauto. Qed.
Lemma steps_work a b n : is_ok (truncate_to bytewise a n full) && is_ok (truncate_to bytewise b (cut_to a n) full) && is_ok (truncate_to bytewise b n full) = true ->
  exists n1 n2 n3 s1 s2 s3, truncate_to bytewise a n full = (Ok n1, s1) /\ truncate_to bytewise b n1 full = (Ok n2, s2) /\ truncate_to bytewise b n full = (Ok n3, s3).
Proof.
  intros H. apply andb_prop in H as (H & H3). apply andb_prop in H as (H1 & H2). destruct (is_ok_ex _ H1) as (s1 & E1), (is_ok_ex _ H2) as (s2 & E2), (is_ok_ex _ H3) as (s3 & E3).
  exists (cut_to a n), (cut_to b (cut_to a n)), (cut_to b n), s1, s2, s3. split; [exact E1|]. split; [exact E2|exact E3].
Qed.
Lemma write_cut off b s n : is_ok (write_back bytewise wb b off n full) && is_ok (truncate_to bytewise s (wrote n off b) full) && is_ok (truncate_to bytewise s n full) = true ->
  exists n1 r1 r2 s1 s2, overwritten bytewise wb n [(off, b)] n1 /\ truncate_to bytewise s n1 full = (Ok r1, s1) /\ truncate_to bytewise s n full = (Ok r2, s2).
Proof.
  intros H. apply andb_prop in H as (H & H3). apply andb_prop in H as (H1 & H2). destruct (is_ok_ex _ H1) as (s1 & E1), (is_ok_ex _ H2) as (s2 & E2), (is_ok_ex _ H3) as (s3 & E3).
  exists (wrote n off b), (cut_to s (wrote n off b)), (cut_to s n), s2, s3. split; [eapply ow_write; [exact E1|apply ow_none]|]. split; [exact E2|exact E3].
Qed.
Definition ab_cz_ef : list bytes := [[x61; x62]; [x63; x7a]; [x65; x66]].
