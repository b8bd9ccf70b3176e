(** Truncating a file inside a chunk gives what importing the shorter contents gives. *)
From Verif Require Import Base Pb PbProofs FSNode FSNodeProofs Dag DagProofs Builder Balanced Trickle Importer Reader Modifier
  SpecFile SpecAppend SpecReader SpecModifier BuilderProofs BalancedProofs TrickleProofs ImportProofs AppendProofs AppendRun ReaderProofs GrowProofs ModifierProofs
  TruncateProofs ReaderWitness ModifierRun ModifierFacts DetProofs SpecShare ShareProofs DirBasic AppendSame AppendBegun EdgeProofs.

Local Notation enc := ShareProofs.enc.

(** [n1] is [n2] without what comes after a certain leaf, which may be cut. *)
Inductive cut : node -> node -> Prop :=
| cut_leaf n1 n2 : node_links n1 = [] -> node_links n2 = [] -> cut n1 n2
| cut_node n1 n2 A x y B : node_links n1 = A ++ [x] -> node_links n2 = A ++ y :: B -> cut (lto x) (lto y) -> cut n1 n2.

Lemma links_dag n cs : file_dag n cs -> node_links n <> [] -> exists p b fs css, n = NProto p b (node_links n) /\ Forall (fun l => lname l = []) (node_links n) /\ FSNodeFromBytes b = Ok fs /\ getData fs = [] /\
  Forall2 file_dag (map lto (node_links n)) css /\ d_blocksizes fs = map (fun cs => mod64 (zlen (concat cs))) css /\ d_filesize fs = Some (mod64 (zlen (concat (concat css)))) /\ cs = concat css.
Proof. intros H Hn. destruct H as [p d|p b fs|p b fs ls css]; cbn [node_links] in *; try contradiction. exists p, b, fs, css. repeat (split; [now auto|]). now auto. Qed.
Lemma Forall2_dag_fun ls : forall a b, Forall2 file_dag ls a -> Forall2 file_dag ls b -> a = b.
Proof. induction ls as [|l ls IH]; intros a b Ha Hb; inversion Ha; subst; inversion Hb; subst; [reflexivity|]. f_equal; [eapply file_dag_fun; eassumption|auto]. Qed.
Lemma last_not_nil {A} (a : list A) x : a ++ [x] <> []. Proof. now destruct a. Qed.
Lemma mid_not_nil {A} (a : list A) x b : a ++ x :: b <> []. Proof. now destruct a. Qed.

(** The parts of a pair of cut inner nodes. *)
Lemma cut_parts n1 n2 A x y B cs1 cs2 : node_links n1 = A ++ [x] -> node_links n2 = A ++ y :: B -> file_dag n1 cs1 -> file_dag n2 cs2 ->
  exists ca cx cy cb, Forall2 file_dag (map lto A) ca /\ file_dag (lto x) cx /\ file_dag (lto y) cy /\ cs1 = concat ca ++ cx /\ cs2 = concat ca ++ cy ++ cb.
Proof.
  intros L1 L2 F1 F2. destruct (links_dag _ _ F1) as (p1 & b1 & f1 & css1 & _ & _ & _ & _ & X1 & _ & _ & ->); [rewrite L1; apply last_not_nil|].
  destruct (links_dag _ _ F2) as (p2 & b2 & f2 & css2 & _ & _ & _ & _ & X2 & _ & _ & ->); [rewrite L2; apply mid_not_nil|].
  rewrite L1, map_app in X1. rewrite L2, map_app in X2. apply Forall2_app_l in X1 as (ca & c1 & -> & Ha & H1). apply Forall2_app_l in X2 as (ca' & c2 & -> & Ha' & H2).
  assert (ca' = ca) as -> by (eapply Forall2_dag_fun; eassumption). cbn [map] in H1, H2. inversion H1 as [|? cx ? r1 Hx Hr]; subst. inversion Hr; subst. inversion H2 as [|? cy ? cb Hy Hb]; subst.
  exists ca, cx, cy, (concat cb). split; [exact Ha|]. split; [exact Hx|]. split; [exact Hy|]. rewrite !concat_app. cbn [concat]. rewrite app_nil_r. auto.
Qed.
Lemma cut_chunks n1 n2 : cut n1 n2 -> forall cs1 cs2, file_dag n1 cs1 -> file_dag n2 cs2 -> exists P a b Q, cs1 = P ++ [a] /\ cs2 = P ++ b :: Q.
Proof.
  induction 1 as [n1 n2 L1 L2|n1 n2 A x y B L1 L2 _ IH]; intros cs1 cs2 F1 F2.
  - destruct (file_dag_leaf_inv _ _ F1 L1) as [(p & d & -> & ->)|(p & b & fs & -> & -> & _)]; destruct (file_dag_leaf_inv _ _ F2 L2) as [(p' & d' & -> & ->)|(p' & b' & fs' & -> & -> & _)]; eexists [], _, _, []; split; reflexivity.
  - destruct (cut_parts _ _ _ _ _ _ _ _ L1 L2 F1 F2) as (ca & cx & cy & cb & _ & Fx & Fy & -> & ->). destruct (IH _ _ Fx Fy) as (P & a & b & Q & -> & ->).
    exists (concat ca ++ P), a, b, (Q ++ cb). rewrite <- !app_assoc. split; reflexivity.
Qed.
Lemma split_same {A} (P P' : list A) a a' b b' Q Q' : P ++ [a] = P' ++ [a'] -> P ++ b :: Q = P' ++ b' :: Q' -> P = P' /\ a = a' /\ b = b' /\ Q = Q'.
Proof. intros H1 H2. apply app_inj_tail in H1 as (<- & <-). apply app_inv_head in H2. injection H2 as <- <-. auto. Qed.

(** ** Cutting the tree *)

Lemma trunc_links_cut rec A y B csy : file_dag (lto y) csy -> forall ca i cur size f0 css0 w r w', Forall2 file_dag (map lto A) ca -> 0 <= cur ->
  cur + zlen (concat (concat ca)) <= size < cur + zlen (concat (concat ca)) + zlen (concat csy) -> cur + zlen (concat (concat ca)) + zlen (concat csy) < 9223372036854775808 ->
  trunc_links rec (A ++ y :: B) i cur size (resized f0 css0) w = (Ok r, w') ->
  exists nc, r = (Some ((i + length A)%nat, nc), AddBlockSize (size - cur - zlen (concat (concat ca))) (resized f0 (css0 ++ ca))) /\
    exists w0, rec (lto y) (size - cur - zlen (concat (concat ca))) w0 = (Ok nc, w').
Proof.
  intros Hy. induction A as [|l A IH]; intros ca i cur size f0 css0 w r w' HF Hc Hs Hl E; cbn [app map] in *; inversion HF as [|? cs ? ca' Hcs HF']; subst; cbn [trunc_links] in E.
  - change (zlen (concat (concat []))) with 0 in *. pose proof (get_cases w (lto y)) as G. destruct (dserv_get w (lto y)) as [c|e| |]; try discriminate. subst c. rewrite (fileSize_dag _ _ Hy) in E by lia.
    rewrite (u64_small (cur + _)) in E by (unfold two64; lia). replace (size <? cur + zlen (concat csy)) with true in E by lia. rewrite u64_small in E by (unfold two64; lia).
    replace (size - cur - 0) with (size - cur) by lia. destruct (rec (lto y) (size - cur) w) as [[nc|e| |] w2] eqn:Er; try discriminate. injection E as <- <-. exists nc. rewrite app_nil_r. cbn [length]. rewrite Nat.add_0_r. split; [reflexivity|]. eexists. exact Er.
  - cbn [concat] in *. rewrite concat_app, zlen_app in *. pose proof (zlen_nonneg (concat cs)) as N1. pose proof (zlen_nonneg (concat (concat ca'))) as N2. pose proof (zlen_nonneg (concat csy)) as N3.
    pose proof (get_cases w (lto l)) as G. destruct (dserv_get w (lto l)) as [c|e| |]; try discriminate. subst c. rewrite (fileSize_dag _ _ Hcs) in E by lia.
    rewrite (u64_small (cur + _)) in E by (unfold two64; lia). replace (size <? cur + zlen (concat cs)) with false in E by lia. rewrite (resized_add f0 css0 cs) in E by (auto; lia).
    destruct (IH ca' (S i) (cur + zlen (concat cs)) size f0 (css0 ++ [cs]) w r w' HF') as (nc & -> & w0 & Er); [lia|lia|lia|exact E|]. exists nc. rewrite <- app_assoc. cbn [app].
    replace (size - (cur + zlen (concat cs)) - zlen (concat (concat ca'))) with (size - cur - (zlen (concat cs) + zlen (concat (concat ca')))) in * by lia.
    split; [|exists w0; exact Er]. do 3 f_equal. cbn [length]. lia.
Qed.

Lemma pos_zlen {A} (l : list A) : l <> [] -> 0 < zlen l.
Proof. destruct l; [contradiction|]. unfold zlen. cbn [length]. lia. Qed.

Section Cut.
  Variable bu : option prefix.
  Variable raw : bool.
  Variable t : Z.
  Hypothesis Ht : raw = true \/ t = TRaw.
  Variables c1 c2 : bytes.
  Hypothesis Hc1 : c1 <> [].
  Hypothesis Hc2 : c2 <> [].

  Record good (n : node) (cs : list bytes) : Prop := { g_dag : file_dag n cs; g_formed : formed bu raw n; g_enc : enc t n; g_sizes : tsizes_exact n }.

  Lemma leaf_cut fuel p b fs w : FSNodeFromBytes b = Ok fs -> fs = SetData (Some (c1 ++ c2)) (NewFSNode TRaw) ->
    dagTruncate fuel (NProto p b []) (zlen c1) w = match GetBytes (SetData (Some c1) (NewFSNode TRaw)) with Ok x => (Ok (NProto p x []), w) | _ => (Panic, w) end.
  Proof.
    intros E ->. assert (X : forall fu, dagTruncate fu (NProto p b []) (zlen c1) w = match WrapData (Some c1) with Ok b' => (Ok (NProto p b' []), w) | Err e => (Err e, w) | Panic => (Panic, w) | Fuel => (Fuel, w) end).
    { intros fu. destruct (SetData_New TRaw (Some (c1 ++ c2))) as (_ & E2 & _ & _ & _ & _ & _ & E8). destruct fu; cbn [dagTruncate node_links]; rewrite E, E2; cbn [obytes]; rewrite zlen_app; pose proof (zlen_nonneg c2);
        replace (zlen c1 + zlen c2 <? zlen c1) with false by lia; rewrite E8; cbn [option_map]; rewrite ztake_app_l by lia; rewrite ztake_all by lia; reflexivity. }
    rewrite X. unfold WrapData, must_marshal, GetBytes. replace (set_filesize (Some (u64 (zlen (obytes (Some c1))))) (set_type (Some TRaw) (set_data (Some c1) empty_data))) with (SetData (Some c1) (NewFSNode TRaw)); [now destruct (marshal_data _)|].
    destruct (SetData_New TRaw (Some c1)) as (E1 & E2 & E3 & E4 & E5 & E6 & E7 & E8). apply pbdata_eq; auto.
  Qed.

  Lemma dagTruncate_cut n1 n2 : cut n1 n2 -> forall P Q fuel w n' w', good n1 (P ++ [c1]) -> good n2 (P ++ (c1 ++ c2) :: Q) -> zlen (concat (P ++ (c1 ++ c2) :: Q)) < 9223372036854775808 ->
    dagTruncate fuel n2 (zlen (concat (P ++ [c1]))) w = (Ok n', w') -> n' = n1.
  Proof.
    induction 1 as [n1 n2 L1 L2|n1 n2 A x y B L1 L2 HC IH]; intros P Q fuel w n' w' G1 G2 Hlen E.
    - pose proof (file_dag_leaf _ _ (g_dag _ _ G1) L1) as X1. pose proof (file_dag_leaf _ _ (g_dag _ _ G2) L2) as X2. rewrite app_length in X1. cbn [length] in X1.
      destruct P; [|cbn [length] in X1; lia]. destruct Q; [|discriminate]. cbn [app concat] in *. rewrite app_nil_r in E.
      destruct G1 as [F1 U1 E1 S1], G2 as [F2 U2 E2 S2]. pose proof (leaf_is bu raw t n1 c1 L1 F1 U1 E1 Hc1) as N1. assert (Hc : c1 ++ c2 <> []) by (intros X; apply app_eq_nil in X as (X & _); contradiction). pose proof (leaf_is bu raw t n2 (c1 ++ c2) L2 F2 U2 E2 Hc) as N2. unfold chunk_leaf in N1, N2.
      destruct raw.
      + subst n2. rewrite N1. assert (X : dagTruncate fuel (NRaw (raw_prefix bu) (c1 ++ c2)) (zlen c1) w = (Ok (NRaw (raw_prefix bu) c1), w)); [|congruence].
        pose proof (zlen_nonneg c2). destruct fuel; cbn [dagTruncate node_links]; rewrite zlen_app; replace (zlen c1 + zlen c2 <? zlen c1) with false by lia; rewrite ztake_app_l by lia; rewrite ztake_all by lia; reflexivity.
      + destruct Ht as [|Et]; [discriminate|]. rewrite Et in *. match type of N2 with _ = NProto _ ?z _ => set (b := z) in N2; clearbody b end. subst n2.
        destruct (E2 _ (reach_self _)) as (f & Hg & Eb & H). assert (X : FSNodeFromBytes b = Ok f) by (eapply unmarshal_marshal; eassumption).
        inversion F2 as [|? ? fs D|? ? ? ? ? Hn]; subst; [|contradiction]. rewrite X in D. injection D as <-.
        assert (Ef : f = SetData (Some (c1 ++ c2)) (NewFSNode TRaw)).
        { destruct H as [(_ & H & _)|(_ & d & ->)]; [unfold getData in *; rewrite H in *; cbn [obytes] in *; match goal with K : [] = c1 ++ c2 |- _ => destruct (Hc (eq_sym K)) end|]. destruct (SetData_New TRaw d) as (_ & Y & _). rewrite Y in *. destruct d as [d|]; cbn [obytes] in *; [match goal with K : d = c1 ++ c2 |- _ => rewrite K; reflexivity end|match goal with K : [] = c1 ++ c2 |- _ => destruct (Hc (eq_sym K)) end]. }
        rewrite (leaf_cut fuel _ _ f w X Ef) in E. destruct (GetBytes (SetData (Some c1) (NewFSNode TRaw))); try discriminate. injection E as <- _. reflexivity.
    - destruct G1 as [F1 U1 E1 S1], G2 as [F2 U2 E2 S2].
      destruct (cut_parts _ _ _ _ _ _ _ _ L1 L2 F1 F2) as (ca & cx & cy & cb & Ha & Fx & Fy & Q1 & Q2). destruct (cut_chunks _ _ HC _ _ Fx Fy) as (P' & a & b' & Q' & -> & ->).
      rewrite app_assoc in Q1. rewrite <- app_assoc, app_assoc in Q2. cbn [app] in Q2. destruct (split_same _ _ _ _ _ _ _ _ Q1 Q2) as (-> & <- & <- & ->).
      destruct (links_dag _ _ F1) as (p1 & b1 & f1 & css1 & N1 & M1 & D1 & _ & X1 & B1 & Z1 & _); [rewrite L1; apply last_not_nil|].
      destruct (links_dag _ _ F2) as (p2 & b2 & f2 & css2 & N2 & M2 & D2 & W2 & X2 & B2 & Z2 & _); [rewrite L2; apply mid_not_nil|].
      rewrite L1 in *. rewrite L2 in *.
      assert (css1 = ca ++ [P' ++ [c1]]) as ->.
      { rewrite map_app in X1. eapply Forall2_dag_fun; [exact X1|]. apply Forall2_app; [exact Ha|]. constructor; [exact Fx|constructor]. }
      pose proof (pos_zlen _ Hc1) as K1. pose proof (pos_zlen _ Hc2) as K2. pose proof (zlen_nonneg (concat P')) as K3. pose proof (zlen_nonneg (concat (concat ca))) as K4. pose proof (zlen_nonneg (concat Q')) as K5.
      set (size := zlen (concat ((concat ca ++ P') ++ [c1]))) in *.
      assert (Hsz : size = zlen (concat (concat ca)) + zlen (concat (P' ++ [c1]))) by (unfold size; rewrite <- app_assoc, concat_app, zlen_app; reflexivity).
      assert (Hx : zlen (concat (P' ++ [c1])) = zlen (concat P') + zlen c1) by (rewrite concat_app, zlen_app; cbn [concat]; now rewrite app_nil_r).
      assert (Hy : zlen (concat (P' ++ (c1 ++ c2) :: Q')) = zlen (concat P') + zlen c1 + zlen c2 + zlen (concat Q')) by (rewrite concat_app, zlen_app; cbn [concat]; rewrite !zlen_app; lia).
      assert (Hlen' : zlen (concat (concat ca)) + zlen (concat (P' ++ (c1 ++ c2) :: Q')) < 9223372036854775808).
      { rewrite Hy. rewrite !concat_app, !zlen_app in Hlen. cbn [concat] in Hlen. rewrite !concat_app, !zlen_app in Hlen. pose proof (zlen_nonneg (concat cb)). lia. }
      rewrite N2 in E. destruct fuel as [|fu].
      { cbn [dagTruncate node_links] in E. destruct (A ++ y :: B) eqn:El; [now apply mid_not_nil in El|]. rewrite D2 in E. discriminate. }
      cbn [dagTruncate node_links] in E. destruct (A ++ y :: B) as [|l0 r0] eqn:El; [now apply mid_not_nil in El|]. rewrite <- El in *. clear l0 r0 El. rewrite D2, (resized_nil f2 W2) in E.
      destruct (trunc_links (dagTruncate fu) (A ++ y :: B) 0 0 size (resized f2 []) w) as [[r|e| |] w1] eqn:Et; try discriminate.
      destruct (trunc_links_cut (dagTruncate fu) A y B _ Fy ca 0 0 size f2 [] w r w1 Ha) as (nc & -> & w0 & Er); [lia|unfold bytes in *; lia|unfold bytes in *; lia|exact Et|]. cbn [app] in *.
      replace (size - 0 - zlen (concat (concat ca))) with (zlen (concat (P' ++ [c1]))) in * by (unfold bytes in *; lia).
      assert (Ix : In x (A ++ [x])) by (apply in_or_app; right; now left). assert (Iy : In y (A ++ y :: B)) by (apply in_or_app; right; now left). rewrite <- L1 in Ix. rewrite <- L2 in Iy.
      assert (nc = lto x) as ->.
      { apply (IH P' Q' fu w0 nc w1); [| |unfold bytes in *; lia|exact Er].
        - constructor; [exact Fx|exact (uniform_link _ _ _ _ _ U1 Ix)|exact (enc_link _ _ _ E1 Ix)|]. intros m l Hm. apply S1. eapply reach_link; eassumption.
        - constructor; [exact Fy|exact (uniform_link _ _ _ _ _ U2 Iy)|exact (enc_link _ _ _ E2 Iy)|]. intros m l Hm. apply S2. eapply reach_link; eassumption. }
      destruct (dserv_add (lto x) None w1) as [[u|e| |] w2]; try discriminate.
      rewrite (resized_add f2 ca (P' ++ [c1])) in E by (auto; unfold bytes in *; lia).
      destruct (U1 _ (reach_self _)) as (_ & Up1), (U2 _ (reach_self _)) as (_ & Up2). rewrite L1 in Up1. rewrite L2 in Up2. specialize (Up1 (last_not_nil _ _)). specialize (Up2 (mid_not_nil _ _ _)). rewrite N1 in Up1. rewrite N2 in Up2. cbn [node_prefix] in Up1, Up2.
      assert (HB : forall n p b ls f, n = NProto p b ls -> ls <> [] -> FSNodeFromBytes b = Ok f -> enc t n -> bare f /\ GetBytes f = Ok b).
      { intros n p b ls f -> Hls Ef He. destruct (He _ (reach_self _)) as (g & Hg & Hb & [H|(H & _)]); [|contradiction]. assert (X : FSNodeFromBytes b = Ok g) by (eapply unmarshal_marshal; eassumption). split; congruence. }
      destruct (HB _ _ _ _ _ N1 (last_not_nil _ _) D1 E1) as ((T1 & T2 & T3 & T4 & T5) & T6). destruct (HB _ _ _ _ _ N2 (mid_not_nil _ _ _) D2 E2) as ((V1 & V2 & V3 & V4 & V5) & V6).
      assert (Ef : resized f2 (ca ++ [P' ++ [c1]]) = f1).
      { apply pbdata_eq; cbn [resized set_blocksizes set_filesize d_type d_data d_filesize d_blocksizes d_hashtype d_fanout d_unrec]; [congruence|congruence|exact (eq_sym Z1)|exact (eq_sym B1)|congruence|congruence|congruence]. }
      unfold bytes in Ef, E; rewrite Ef, T6 in E. injection E as <- _. rewrite N1. cbn [Nat.add]. rewrite firstn_app, firstn_all, Nat.sub_diag. cbn [firstn]. rewrite app_nil_r.
      assert (Ex : make_link [] (lto x) = x).
      { unfold make_link. rewrite (file_dag_seal _ _ Fx). rewrite node_size_exact.
        - rewrite <- (S1 n1 x (reach_self _) Ix). apply Forall_app in M1 as (_ & M1). inversion M1 as [|? ? M1' _]; subst. destruct x as [nm sz to]. cbn in *. congruence.
        - apply Forall_forall. intros l Hl. split; [apply (S1 (lto x) l); [eapply reach_link; [exact Ix|apply reach_self]|exact Hl]|]. intros m z Hm. apply S1. eapply reach_link; [exact Ix|]. eapply reach_link; eassumption. }
      rewrite Ex. cbn [seal]. rewrite lsort_unnamed by exact M1. congruence.
  Qed.
End Cut.

(** ** Trickle imports *)

Definition cutl (l1 l2 : list link) : Prop := exists A x y B, l1 = A ++ [x] /\ l2 = A ++ y :: B /\ cut (lto x) (lto y).
Lemma cutl_more l n n' : cutl l (f_links n) -> longer n n' -> cutl l (f_links n').
Proof. intros (A & x & y & B & -> & E & H) (L & -> & _). exists A, x, y, (B ++ L). rewrite E, <- app_assoc. auto. Qed.

Section run.
  Variables ca cz : bytes.
  Variable t : list event.
  Definition ahead (d1 d2 : db) : Prop := exists u, pend d1 = u ++ [EvData ca] /\ pend d2 = u ++ EvData cz :: t.
  Definition lock (s1 s2 : fsn * db) : Prop := fst s1 = fst s2 /\ ahead (snd s1) (snd s2) /\ cfg (snd s1) = cfg (snd s2).
  Definition apart (s1 s2 : fsn * db) : Prop := pend (snd s1) = [] /\ cutl (f_links (fst s1)) (f_links (fst s2)).
  Definition steps (m1 m2 : M (fsn * db) unit) : Prop := forall s1 s2 s1' s2', lock s1 s2 -> m1 s1 = (Ok tt, s1') -> m2 s2 = (Ok tt, s2') -> lock s1' s2' \/ apart s1' s2'.
  Definition idle (m : M (fsn * db) unit) : Prop := forall n d n' d', pend d = [] -> m (n, d) = (Ok tt, (n', d')) -> f_links n' = f_links n /\ pend d' = [].
  Definition grows (m : M (fsn * db) unit) : Prop := forall n d n' d', m (n, d) = (Ok tt, (n', d')) -> longer n n'.
  Definition makes (mk1 mk2 : M db (xnode * Z)) : Prop := forall d1 d2 x1 x2 d1' d2', ahead d1 d2 -> cfg d1 = cfg d2 ->
    mk1 d1 = (Ok x1, d1') -> mk2 d2 = (Ok x2, d2') ->
    (same_child x1 x2 /\ ahead d1' d2' /\ cfg d1' = cfg d2') \/ (pend d1' = [] /\ cut (seal (fst (fst x1))) (seal (fst (fst x2)))).

  Lemma steps_bind m1 m2 k1 k2 : steps m1 m2 -> steps k1 k2 -> idle k1 -> grows k2 -> steps (do _ <- m1 ;; k1) (do _ <- m2 ;; k2).
  Proof.
    intros Hm Hk Hi Hg s1 s2 [n1' d1'] [n2' d2'] H E1 E2. apply bind_ok in E1 as ([] & [n1 d1] & A1 & E1). apply bind_ok in E2 as ([] & [n2 d2] & A2 & E2).
    destruct (Hm _ _ _ _ H A1 A2) as [Hl|(Hp & Hx)]; [exact (Hk _ _ _ _ Hl E1 E2)|]. right. cbn [fst snd] in *. destruct (Hi _ _ _ _ Hp E1) as (L1 & P1). split; [exact P1|]. cbn [fst].
    rewrite L1. eapply cutl_more; [exact Hx|]. eapply Hg, E2.
  Qed.
  Lemma steps_ret : steps (ret tt) (ret tt).
  Proof. intros s1 s2 s1' s2' H E1 E2. injection E1 as <-. injection E2 as <-. now left. Qed.
  Lemma steps_fuel_l m : steps (lift Fuel) m. Proof. intros ? ? ? ? _ E. discriminate. Qed.
  Lemma steps_fuel_r m : steps m (lift Fuel). Proof. intros ? ? ? ? _ _ E. discriminate. Qed.
  Lemma idle_fuel : idle (lift Fuel). Proof. intros ? ? ? ? _ E. discriminate. Qed.
  Lemma grows_fuel : grows (lift Fuel). Proof. intros ? ? ? ? E. discriminate. Qed.
  Lemma steps_done k1 k2 : steps k1 k2 -> steps (do d <- on_db Done ;; if d : bool then ret tt else k1) (do d <- on_db Done ;; if d : bool then ret tt else k2).
  Proof.
    intros Hk [n1 d1] [n2 d2] s1' s2' (Hn & Hp & Hc) E1 E2. cbn [fst snd] in *. subst n2. apply bind_ok in E1 as (b1 & [m1 e1] & A1 & E1). apply bind_ok in E2 as (b2 & [m2 e2] & A2 & E2).
    apply on_db_ok in A1 as (A1 & ->). apply on_db_ok in A2 as (A2 & ->). apply done_ok in A1 as (P1 & C1 & B1). apply done_ok in A2 as (P2 & C2 & B2).
    destruct Hp as (u & U1 & U2). destruct b1; [rewrite U1 in B1; now destruct u|]. destruct b2; [rewrite U2 in B2; now destruct u|].
    apply (Hk (n1, e1) (n1, e2) _ _); [|exact E1|exact E2]. split; [reflexivity|]. cbn [fst snd]. split; [exists u; split; congruence|congruence].
  Qed.
  Lemma idle_done k : idle (do d <- on_db Done ;; if d : bool then ret tt else k).
  Proof.
    intros n d n' d' Hp E. apply bind_ok in E as (b & [m e] & A & E). apply on_db_ok in A as (A & ->). apply done_ok in A as (P & C & B). destruct b; [|contradiction]. injection E as <- <-. split; [reflexivity|congruence].
  Qed.
  Lemma steps_child mk1 mk2 k1 k2 : makes mk1 mk2 -> steps k1 k2 -> idle k1 -> grows k2 ->
    steps (do c <- on_db mk1 ;; do _ <- AddChild (fst c) (snd c) ;; k1) (do c <- on_db mk2 ;; do _ <- AddChild (fst c) (snd c) ;; k2).
  Proof.
    intros Hm Hk Hi Hg [n d1] [n2 d2] [n1' d1'] [n2' d2'] (Hn & Hp & Hc) E1 E2. cbn [fst snd] in *. subst n2. apply bind_ok in E1 as (c0 & [m1 e1] & A1 & E1). apply bind_ok in E2 as (c2 & [m2 e2] & A2 & E2).
    apply on_db_ok in A1 as (A1 & ->). apply on_db_ok in A2 as (A2 & ->).
    apply bind_ok in E1 as ([] & [m3 e3] & B1 & E1). apply bind_ok in E2 as ([] & [m4 e4] & B2 & E2). apply AddChild_ok in B1 as (-> & P3 & C3). apply AddChild_ok in B2 as (-> & P4 & C4).
    destruct (Hm _ _ _ _ _ _ Hp Hc A1 A2) as [((X1 & X2) & (u & U1 & U2) & Hc')|(Hp' & Hx)].
    - refine (Hk _ _ _ _ _ E1 E2). split; [cbn [fst]; now rewrite X1, X2|]. cbn [snd]. split; [exists u; split; congruence|congruence].
    - right. cbn [fst snd] in *. destruct (Hi _ _ _ _ (eq_trans P3 Hp') E1) as (L1 & P1). split; [exact P1|]. cbn [fst]. rewrite L1. cbn [f_links]. apply Hg in E2.
      refine (cutl_more _ _ _ _ E2). cbn [f_links]. exists (f_links n), (make_link [] (fst (fst c0))), (make_link [] (fst (fst c2))), []. split; [reflexivity|]. split; [reflexivity|]. exact Hx.
  Qed.
  Lemma grows_child mk k : grows k -> grows (do c <- on_db mk ;; do _ <- AddChild (fst c) (snd c) ;; k).
  Proof.
    intros Hk n d n' d' E. apply bind_ok in E as (c & [m1 e1] & A1 & E). apply on_db_ok in A1 as (_ & ->). apply bind_ok in E as ([] & [m3 e3] & B1 & E). apply AddChild_ok in B1 as (-> & _).
    eapply longer_trans; [|eapply Hk, E]. eexists. split; [reflexivity|repeat constructor].
  Qed.
  Lemma grows_done k : grows k -> grows (do d <- on_db Done ;; if d : bool then ret tt else k).
  Proof. intros Hk n d n' d' E. apply bind_ok in E as (b & [m e] & A & E). apply on_db_ok in A as (_ & ->). destruct b; [injection E as <- <-; apply longer_refl|eapply Hk, E]. Qed.

  Lemma idle_add mk j : idle (add_children mk j).
  Proof. intros n d n' d' Hp E. apply add_children_done in E as (-> & P & _); auto. Qed.
  Lemma idle_depth fill f dp mx : idle (depth_loop fill f dp mx).
  Proof. intros n d n' d' Hp E. apply depth_loop_done in E as (-> & P & _); auto. Qed.
  Lemma idle_commit : idle commit.
  Proof. intros n d n' d' Hp E. apply commit_inv in E as (b & _ & -> & ->). auto. Qed.
  Lemma grows_commit : grows commit.
  Proof. intros n d n' d' E. apply commit_longer in E. exists []. rewrite app_nil_r. split; [exact E|constructor]. Qed.
  Lemma steps_commit : steps commit commit.
  Proof.
    intros [n1 d1] [n2 d2] [n1' d1'] [n2' d2'] (Hn & H) E1 E2. cbn [fst snd] in *. subst n2. apply commit_inv in E1 as (b1 & B1 & -> & ->). apply commit_inv in E2 as (b2 & B2 & -> & ->). left. split; [cbn [fst]; congruence|exact H].
  Qed.

  Lemma steps_add mk1 mk2 : makes mk1 mk2 -> forall j, steps (add_children mk1 j) (add_children mk2 j).
  Proof.
    intros Hm. induction j as [|j IH]; cbn [add_children]; [apply steps_ret|]. apply steps_done, steps_child; auto; [apply idle_add|]. intros n d n' d'. apply add_children_longer.
  Qed.
  Lemma steps_depth fill1 fill2 : (forall z, makes (fill1 z) (fill2 z)) -> forall f1 f2 dp mx, steps (depth_loop fill1 f1 dp mx) (depth_loop fill2 f2 dp mx).
  Proof.
    intros Hm. induction f1 as [|f1 IH]; intros f2 dp mx; destruct f2; cbn [depth_loop]; (destruct (_ || _); [|apply steps_ret]); apply steps_done;
      (apply steps_bind; [apply steps_add, Hm| | |]); first [apply steps_fuel_l|apply steps_fuel_r|apply idle_fuel|apply grows_fuel|apply IH|apply idle_depth|intros ? ? ? ?; apply depth_loop_longer].
  Qed.
  Lemma makes_leaf : makes (NewLeafDataNode TRaw) (NewLeafDataNode TRaw).
  Proof.
    intros d1 d2 [x1 z1] [x2 z2] d1' d2' (u & U1 & U2) Hc E1 E2. destruct (cfg d1) as [[[raw k] bu] fs] eqn:Ec.
    destruct (AppendSame.leaf_ok raw k bu fs d1 x1 z1 d1' Ec E1) as (b1 & P1 & C1 & L1 & _); [rewrite U1; apply last_not_nil|]. destruct (AppendSame.leaf_ok raw k bu fs d2 x2 z2 d2' (eq_sym Hc) E2) as (b2 & P2 & C2 & L2 & _); [rewrite U2; apply mid_not_nil|].
    destruct u as [|v u]; cbn [app] in U1, U2.
    - right. rewrite U1 in P1. injection P1 as <- P1. split; [now symmetry|]. cbn [fst]. apply cut_leaf; [injection L1 as -> _|injection L2 as -> _]; now destruct raw.
    - left. rewrite U1 in P1. rewrite U2 in P2. injection P1 as -> P1. injection P2 as <- P2. rewrite <- L2 in L1. injection L1 as X1 X2. split; [split; assumption|]. split; [exists u; split; congruence|congruence].
  Qed.
  Lemma fill_grows : forall f, grows (fill_loop (NewLeafDataNode TRaw) f).
  Proof.
    induction f as [|f IH]; intros n d n' d' E; cbn [fill_loop] in E; (destruct (_ <? _); [|injection E as <- <-; apply longer_refl]); revert E; apply grows_done, grows_child; [apply grows_fuel|exact IH].
  Qed.
  Lemma fill_idle : forall f, idle (fill_loop (NewLeafDataNode TRaw) f).
  Proof.
    intros f n d n' d' Hp E. destruct f; cbn [fill_loop] in E; (destruct (_ <? _); [|injection E as <- <-; auto]); revert E; apply idle_done; exact Hp.
  Qed.
  Lemma fill_steps : forall f1 f2, steps (fill_loop (NewLeafDataNode TRaw) f1) (fill_loop (NewLeafDataNode TRaw) f2).
  Proof.
    assert (X : forall k1 k2, steps k1 k2 -> idle k1 -> grows k2 -> forall s1 s2 s1' s2', lock s1 s2 ->
      (if fNumChildren (fst s1) <? db_maxlinks (snd s1) then (do d <- on_db Done ;; if d : bool then ret tt else do c <- on_db (NewLeafDataNode TRaw) ;; do _ <- AddChild (fst c) (snd c) ;; k1) s1 else (Ok tt, s1)) = (Ok tt, s1') ->
      (if fNumChildren (fst s2) <? db_maxlinks (snd s2) then (do d <- on_db Done ;; if d : bool then ret tt else do c <- on_db (NewLeafDataNode TRaw) ;; do _ <- AddChild (fst c) (snd c) ;; k2) s2 else (Ok tt, s2)) = (Ok tt, s2') ->
      lock s1' s2' \/ apart s1' s2').
    { intros k1 k2 Hk Hi Hg s1 s2 s1' s2' H E1 E2. pose proof H as (Hn & _ & Hc). destruct (cfg_fields _ _ Hc) as (_ & Em & _). rewrite Hn, Em in E1. destruct (_ <? _).
      - exact (steps_done _ _ (steps_child _ _ _ _ makes_leaf Hk Hi Hg) _ _ _ _ H E1 E2).
      - injection E1 as <-. injection E2 as <-. now left. }
    induction f1 as [|f1 IH]; intros f2 s1 s2 s1' s2' H E1 E2; destruct f2; cbn [fill_loop] in *; (eapply X; [| | |exact H|exact E1|exact E2]);
      first [apply steps_fuel_l|apply steps_fuel_r|apply idle_fuel|apply grows_fuel|apply IH|apply fill_idle|apply fill_grows].
  Qed.
  Lemma layer_steps : steps FillNodeLayer FillNodeLayer.
  Proof. intros s1 s2 s1' s2' H E1 E2. unfold FillNodeLayer in *. exact (steps_bind _ _ _ _ (fill_steps _ _) steps_commit idle_commit grows_commit _ _ _ _ H E1 E2). Qed.
  Lemma layer_longer n d n' d' : FillNodeLayer (n, d) = (Ok tt, (n', d')) -> longer n n'.
  Proof. unfold FillNodeLayer. intros E. apply bind_ok in E as ([] & [m e] & A & E). eapply longer_trans; [eapply fill_grows, A|eapply grows_commit, E]. Qed.
  Lemma rec_longer f mx n d n' d' : fillTrickleRec f mx (n, d) = (Ok tt, (n', d')) -> longer n n'.
  Proof.
    destruct f; cbn [fillTrickleRec]; [discriminate|]. intros E. apply bind_ok in E as ([] & [m e] & A & E). apply bind_ok in E as ([] & [m2 e2] & B & E).
    eapply longer_trans; [eapply layer_longer, A|]. eapply longer_trans; [eapply depth_loop_longer, B|eapply grows_commit, E].
  Qed.
  Lemma grows_depth fill f dp mx : grows (depth_loop fill f dp mx). Proof. intros n d n' d'. apply depth_loop_longer. Qed.
  Lemma rec_steps : forall f1 f2 mx, steps (fillTrickleRec f1 mx) (fillTrickleRec f2 mx) /\ makes (new_subtree f1 mx) (new_subtree f2 mx).
  Proof.
    induction f1 as [|f1 IH]; intros f2 mx.
    - split; [intros ? ? ? ? _ E; discriminate|]. intros d1 d2 x1 x2 d1' d2' _ _ E. discriminate.
    - assert (S : steps (fillTrickleRec (S f1) mx) (fillTrickleRec f2 mx)).
      { destruct f2 as [|f2]; [intros ? ? ? ? _ _ E; discriminate|]. cbn [fillTrickleRec].
        apply steps_bind; [apply layer_steps| | |].
        - apply steps_bind; [apply steps_depth; intros z; exact (proj2 (IH f2 z))|apply steps_commit|apply idle_commit|apply grows_commit].
        - intros n d n' d' Hp E. apply bind_ok in E as ([] & [m e] & A & E). apply idle_depth in A as (L1 & P1); [|exact Hp]. apply idle_commit in E as (L2 & P2); [|exact P1]. split; congruence.
        - intros n d n' d' E. apply bind_ok in E as ([] & [m e] & A & E). eapply longer_trans; [eapply depth_loop_longer, A|eapply grows_commit, E]. }
      split; [exact S|]. intros d1 d2 x1 x2 d1' d2' Hp Hc E1 E2. unfold new_subtree, with_new in *. destruct (cfg_fields _ _ Hc) as (_ & _ & Eb & _). rewrite Eb in E1. set (n := NewFSNodeOverDag (db_builder d2) TFile) in *.
      destruct (fillTrickleRec (Datatypes.S f1) mx (n, d1)) as [[[]| | |] [n1 e1]] eqn:E3; try discriminate. destruct (fillTrickleRec f2 mx (n, d2)) as [[[]| | |] [n2 e2]] eqn:E4; try discriminate.
      injection E1 as <- <-. injection E2 as <- <-. destruct (S (n, d1) (n, d2) _ _ (conj eq_refl (conj Hp Hc)) E3 E4) as [(Hn & Hp' & Hc')|(Hp' & Hx)]; cbn [fst snd] in *.
      + left. subst n2. split; [split; reflexivity|]. auto.
      + right. split; [exact Hp'|]. cbn [fst].
        assert (HU : forall f n0 d0 d0', fillTrickleRec f mx (n, d0) = (Ok tt, (n0, d0')) -> seal (GetDagNode n0) = GetDagNode n0).
        { intros f n0 d0 d0' E. apply rec_longer in E as (L & HL & HU). cbn [n NewFSNodeOverDag f_links app] in HL. apply seal_unnamed. unfold GetDagNode. cbn [node_links]. rewrite HL. exact HU. }
        rewrite (HU _ _ _ _ E3), (HU _ _ _ _ E4). destruct Hx as (A & x & y & B & X1 & X2 & X3). exact (cut_node (GetDagNode n1) (GetDagNode n2) A x y B X1 X2 X3).
  Qed.
End run.

Lemma trickle_cut dbp xs c1 c ys r1 r2 : imported true dbp (xs ++ [c1]) r1 -> imported true dbp (xs ++ c :: ys) r2 -> c1 <> c -> cut r1 r2.
Proof.
  intros I1 I2 Hne. pose proof (imported_facts _ _ _ _ I1) as (F1 & _). pose proof (imported_facts _ _ _ _ I2) as (F2 & _).
  destruct I1 as (_ & _ & f1 & fi1 & w1 & w1' & _ & _ & H1), I2 as (_ & _ & f2 & fi2 & w2 & w2' & _ & _ & H2).
  apply build_inv in H1 as [(e & _ & H & _)|(d1 & d1' & _ & L1 & _ & P1 & _ & C1 & _)]; [discriminate|]. apply build_inv in H2 as [(e & _ & H & _)|(d2 & d2' & _ & L2 & _ & P2 & _ & C2 & _)]; [discriminate|].
  unfold Layout in *. apply bind_ok in L1 as (x1 & e1 & A1 & L1). apply bind_ok in L1 as ([] & g1 & _ & L1). injection L1 as <- _. apply bind_ok in L2 as (x2 & e2 & A2 & L2). apply bind_ok in L2 as ([] & g2 & _ & L2). injection L2 as <- _.
  assert (HA : ahead c1 c (map EvData ys) d1 d2) by (exists (map EvData xs); rewrite P1, P2, !map_app; split; reflexivity).
  destruct (proj2 (rec_steps c1 c (map EvData ys) f1 f2 (-1)) d1 d2 x1 x2 e1 e2 HA ltac:(congruence) A1 A2) as [((E & _) & _)|(_ & H)]; [|exact H].
  rewrite E in F1. pose proof (file_dag_fun _ _ _ F1 F2) as X. apply app_inv_head in X. injection X as X _. contradiction.
Qed.

(** ** The chunks of a truncated file *)

Lemma concat_at {A} (c : A) : forall css xs ys, concat css = xs ++ c :: ys -> exists ca P Q cb, css = ca ++ (P ++ c :: Q) :: cb /\ xs = concat ca ++ P /\ ys = Q ++ concat cb.
Proof.
  induction css as [|l css IH]; intros xs ys E; cbn [concat] in E; [now destruct xs|].
  destruct (Nat.lt_ge_cases (length xs) (length l)) as [H|H].
  - assert (X : firstn (length xs) l = xs) by (apply (f_equal (firstn (length xs))) in E; rewrite !firstn_app, Nat.sub_diag, firstn_all in E; cbn [firstn] in E; rewrite app_nil_r in E; replace (length xs - length l)%nat with 0%nat in E by lia; cbn [firstn] in E; now rewrite app_nil_r in E).
    rewrite <- (firstn_skipn (length xs) l), X, <- app_assoc in E. apply app_inv_head in E. destruct (skipn (length xs) l) as [|v Q] eqn:Ev; [apply (f_equal (@length A)) in Ev; rewrite skipn_length in Ev; cbn in Ev; lia|].
    cbn [app] in E. injection E as -> E. exists [], xs, Q, css. cbn [app concat]. split; [|split; [reflexivity|now symmetry]]. f_equal. rewrite <- X at 1. rewrite <- Ev. symmetry. apply firstn_skipn.
  - assert (X : firstn (length l) xs = l) by (apply (f_equal (firstn (length l))) in E; rewrite !firstn_app, Nat.sub_diag, firstn_all in E; cbn [firstn] in E; rewrite app_nil_r in E; replace (length l - length xs)%nat with 0%nat in E by lia; cbn [firstn] in E; rewrite app_nil_r in E; now symmetry).
    rewrite <- (firstn_skipn (length l) xs), X, <- app_assoc in E. apply app_inv_head in E. destruct (IH _ _ E) as (ca & P & Q & cb & -> & E2 & E3). exists (l :: ca), P, Q, cb. split; [reflexivity|]. split; [|exact E3].
    cbn [concat]. rewrite <- app_assoc, <- E2. rewrite <- X at 1. symmetry. apply firstn_skipn.
Qed.

Lemma dagTruncate_chunks fuel : forall n xs c ys size w n' w', (height n <= fuel)%nat -> file_dag n (xs ++ c :: ys) -> zlen (concat xs) <= size < zlen (concat xs) + zlen c -> zlen (concat (xs ++ c :: ys)) < 9223372036854775808 ->
  dagTruncate fuel n size w = (Ok n', w') -> file_dag n' (xs ++ [ztake (size - zlen (concat xs)) c]).
Proof.
  induction fuel as [|fu IH]; intros n xs c ys size w n' w' Hh Hf Hs Hl E;
    (assert (Hs' : 0 <= size < zlen (concat (xs ++ c :: ys))) by (rewrite concat_app, zlen_app; cbn [concat]; rewrite zlen_app; pose proof (zlen_nonneg (concat xs)); pose proof (zlen_nonneg (concat ys)); unfold bytes in *; lia));
    pose proof (dagTruncate_spec _ n _ size w Hh Hf Hs' Hl) as (_ & T); rewrite E in T; cbn [fst snd] in T; destruct (tr_dag _ _ _ _ _ _ T) as (cs' & D1 & D2);
    (destruct (node_links n) as [|l0 r0] eqn:El;
      [pose proof (proj1 (tr_links _ _ _ _ _ _ T) El) as El'; pose proof (file_dag_leaf _ _ Hf El) as X1; pose proof (file_dag_leaf _ _ D1 El') as X2; rewrite app_length in X1; cbn [length] in X1; destruct xs; [|cbn [length] in X1; lia];
       destruct ys; [|discriminate]; destruct cs' as [|c' [|]]; try discriminate; cbn [app concat] in *; rewrite !app_nil_r in *; change (zlen []) with 0; rewrite Z.sub_0_r; now rewrite <- D2|]).
  { destruct n; [discriminate|cbn in Hh; lia]. }
  destruct (links_dag _ _ Hf) as (p & b & f & css & N & M & D & W & F & _ & _ & Ec); [rewrite El; discriminate|]. symmetry in Ec. destruct (concat_at _ _ _ _ Ec) as (ca & P & Q & cb & -> & -> & ->).
  assert (X : exists A y B, node_links n = A ++ y :: B /\ Forall2 file_dag (map lto A) ca /\ file_dag (lto y) (P ++ c :: Q)).
  { clear - F. revert F. generalize (node_links n). induction ca as [|v ca IH]; intros ls F; destruct ls as [|l ls]; cbn [map app] in F; inversion F as [|? ? ? ? H1 H2]; subst.
    - exists [], l, ls. split; [reflexivity|]. split; [constructor|exact H1].
    - destruct (IH _ H2) as (A & y & B & -> & HA & Hy). exists (l :: A), y, B. split; [reflexivity|]. split; [constructor; assumption|exact Hy]. }
  destruct X as (A & y & B & L & HA & Hy). clear l0 r0 El. rewrite L in *.
  pose proof (zlen_nonneg (concat (concat ca))) as K1. pose proof (zlen_nonneg (concat P)) as K2. pose proof (zlen_nonneg (concat Q)) as K3. pose proof (zlen_nonneg (concat (concat cb))) as K4.
  rewrite concat_app, zlen_app in Hs. rewrite !concat_app, !zlen_app in Hl. cbn [concat] in Hl. rewrite !zlen_app in Hl. rewrite concat_app, zlen_app in Hl.
  assert (Hy' : zlen (concat (P ++ c :: Q)) = zlen (concat P) + zlen c + zlen (concat Q)) by (rewrite concat_app, zlen_app; cbn [concat]; rewrite zlen_app; lia).
  rewrite N in E. cbn [dagTruncate node_links] in E. destruct (A ++ y :: B) as [|l0 r0] eqn:El; [now apply mid_not_nil in El|]. rewrite <- El in *. clear l0 r0 El. rewrite D, (resized_nil f W) in E.
  destruct (trunc_links (dagTruncate fu) (A ++ y :: B) 0 0 size (resized f []) w) as [[r|e| |] w1] eqn:Et; try discriminate.
  destruct (trunc_links_cut (dagTruncate fu) A y B _ Hy ca 0 0 size f [] w r w1 HA) as (nc & -> & w0 & Er); [lia|unfold bytes in *; lia|unfold bytes in *; lia|exact Et|].
  destruct (dserv_add nc None w1) as [[u|e| |] w2]; try discriminate. destruct (GetBytes _) as [d|e| |]; try discriminate. injection E as E _.
  assert (Hn : file_dag nc (P ++ [ztake (size - 0 - zlen (concat (concat ca)) - zlen (concat P)) c])).
  { apply (IH (lto y) P c Q _ w0 nc w1); [|exact Hy|unfold bytes in *; lia|unfold bytes in *; lia|exact Er].
    assert (I : In y (A ++ y :: B)) by (apply in_or_app; right; now left). pose proof (height_child p b _ y I) as Z. rewrite N in Hh. lia. }
  replace (size - zlen (concat (concat ca ++ P))) with (size - 0 - zlen (concat (concat ca)) - zlen (concat P)) by (rewrite concat_app, zlen_app; lia).
  cbn [Nat.add] in E. rewrite firstn_app, firstn_all, Nat.sub_diag in E. cbn [firstn] in E. rewrite app_nil_r in E.
  assert (M' : Forall (fun l => lname l = []) (A ++ [make_link [] nc])) by (apply Forall_app in M as (M & _); apply Forall_app; split; [exact M|constructor; [reflexivity|constructor]]).
  cbn [seal] in E. rewrite lsort_unnamed in E by exact M'. destruct (links_dag _ _ D1) as (_ & _ & _ & css' & _ & _ & _ & _ & F' & _ & _ & ->); [subst n'; apply last_not_nil|].
  assert (css' = ca ++ [P ++ [ztake (size - 0 - zlen (concat (concat ca)) - zlen (concat P)) c]]) as ->.
  { subst n'. cbn [node_links] in F'. rewrite map_app in F'. eapply Forall2_dag_fun; [exact F'|]. apply Forall2_app; [exact HA|]. constructor; [|constructor]. cbn [lto make_link]. now rewrite (file_dag_seal _ _ Hn). }
  rewrite concat_app in D1. cbn [concat] in D1. rewrite app_nil_r, app_assoc in D1. exact D1.
Qed.

(** ** Truncate and GetNode *)

Lemma truncate_to_inv split size n cs w n' s' : file_dag n cs -> zlen (concat cs) < 9223372036854775808 -> 0 <= size < zlen (concat cs) -> truncate_to split size n w = (Ok n', s') ->
  exists w2, dagTruncate (weight n) n size w = (Ok n', w2).
Proof.
  intros Hcs Hl Hs. unfold truncate_to. unfold mTruncate. unfold bind at 1. rewrite Sync_none by reflexivity. unfold bind at 1.
  assert (S : mSize (NewDagModifier n, w) = (Ok (zlen (concat cs)), (NewDagModifier n, w))).
  { unfold mSize, bind, cur_node, lift, get_mod. cbn [fst snd NewDagModifier m_node m_buf]. rewrite (fileSize_dag n cs Hcs) by exact Hl. cbn [fst m_buf]. unfold ret. now rewrite i64_small by (unfold two63, bytes in *; lia). }
  rewrite S. replace (size =? zlen (concat cs)) with false by (unfold bytes in *; lia). replace (zlen (concat cs) <? size) with false by (unfold bytes in *; lia).
  unfold bind at 1, truncate_cur at 1. cbn [fst snd NewDagModifier m_node]. rewrite u64_small by (unfold two64, bytes in *; lia).
  pose proof (dagTruncate_spec (weight n) n cs size w (height_weight n) Hcs Hs Hl) as T.
  destruct (dagTruncate (weight n) n size w) as [[nn|e| |] w2]; destruct T as [Tg T]; cbn [fst snd] in *; try contradiction; [|discriminate].
  destruct (tr_dag _ _ _ _ _ _ T) as (cs' & T1 & T2).
  unfold bind at 1. match goal with |- context [mod_add nn (?mm, w2)] => pose proof (mod_add_spec mm w2 nn) as B; destruct (mod_add nn (mm, w2)) as [[u6|e| |] [m6 w6]] eqn:Em end; try discriminate.
  destruct B as (Em6 & B1 & B2 & B3). assert (Es : seal nn = nn) by (eapply file_dag_seal, T1). rewrite Es in *.
  unfold upd_mod. cbn [fst snd]. unfold mGetNode, bind. rewrite Sync_none by (rewrite Em6; clear; destruct n; reflexivity). cbn [fst m_set_node m_node].
  intros E. exists w2. congruence.
Qed.

Lemma truncate_chunks : forall split size n xs c ys w n' s', file_dag n (xs ++ c :: ys) -> zlen (concat (xs ++ c :: ys)) < 9223372036854775808 -> zlen (concat xs) <= size < zlen (concat xs) + zlen c ->
  truncate_to split size n w = (Ok n', s') -> file_dag n' (xs ++ [ztake (size - zlen (concat xs)) c]).
Proof.
  intros split size n xs c ys w n' s' Hf Hl Hs E. destruct (fun X => truncate_to_inv _ _ _ _ _ _ _ Hf Hl X E) as (w2 & E2).
  - rewrite concat_app, zlen_app. cbn [concat]. rewrite zlen_app. pose proof (zlen_nonneg (concat xs)). pose proof (zlen_nonneg (concat ys)). unfold bytes in *. lia.
  - exact (dagTruncate_chunks _ _ _ _ _ _ _ _ _ (height_weight n) Hf Hs Hl E2).
Qed.

Lemma truncate_cut split trickle dbp xs c1 c2 ys r1 r2 w n' s' : imported trickle dbp (xs ++ [c1]) r1 -> imported trickle dbp (xs ++ (c1 ++ c2) :: ys) r2 -> c2 <> [] -> zlen (concat (xs ++ (c1 ++ c2) :: ys)) < 9223372036854775808 ->
  pr_raw dbp = true \/ trickle = true -> cut r1 r2 -> truncate_to split (zlen (concat (xs ++ [c1]))) r2 w = (Ok n', s') -> n' = r1.
Proof.
  intros I1 I2 Hc2 Hl Ht HC E. destruct (imported_facts _ _ _ _ I1) as (F1 & U1 & E1 & S1 & _ & Hc). destruct (imported_facts _ _ _ _ I2) as (F2 & U2 & E2 & S2 & _ & _).
  assert (Hc1 : c1 <> []) by (apply Hc, in_or_app; right; now left).
  destruct (fun X => truncate_to_inv _ _ _ _ _ _ _ F2 Hl X E) as (w2 & E').
  { rewrite !concat_app, !zlen_app. cbn [concat]. rewrite !zlen_app. pose proof (pos_zlen c1 Hc1). pose proof (pos_zlen c2 Hc2). pose proof (zlen_nonneg (concat xs)). pose proof (zlen_nonneg (concat ys)). change (zlen (@nil byte)) with 0. unfold bytes in *. lia. }
  eapply (dagTruncate_cut (pr_builder dbp) (pr_raw dbp) (if trickle then TRaw else TFile)); [destruct Ht as [Ht| ->]; [now left|now right]|exact Hc1|exact Hc2|exact HC| | |exact Hl|exact E'].
  - constructor; assumption.
  - constructor; assumption.
Qed.
Lemma truncate_trickle : forall split dbp xs c1 c2 ys r1 r2 w n' s', imported true dbp (xs ++ [c1]) r1 -> imported true dbp (xs ++ (c1 ++ c2) :: ys) r2 -> c2 <> [] -> zlen (concat (xs ++ (c1 ++ c2) :: ys)) < 9223372036854775808 ->
  truncate_to split (zlen (concat (xs ++ [c1]))) r2 w = (Ok n', s') -> n' = r1.
Proof.
  intros split dbp xs c1 c2 ys r1 r2 w n' s' I1 I2 Hc2 Hl E. eapply truncate_cut; eauto. eapply trickle_cut; [exact I1|exact I2|].
  intros X. apply (f_equal zlen) in X. rewrite zlen_app in X. pose proof (pos_zlen c2 Hc2). lia.
Qed.
Lemma truncate_boundary : forall split trickle dbp xs ys n w n' s' r, file_dag n (xs ++ ys) -> zlen (concat (xs ++ ys)) < 9223372036854775808 -> (forall c, In c ys -> c <> []) -> ys <> [] ->
  truncate_to split (zlen (concat xs)) n w = (Ok n', s') -> file_dag n' (xs ++ [[]]) /\ (imported trickle dbp xs r -> n' <> r).
Proof.
  intros split trickle dbp xs [|c ys] n w n' s' r Hf Hl Hc Hne E; [contradiction|]. assert (Hd : file_dag n' (xs ++ [[]])).
  { pose proof (pos_zlen c (Hc c (or_introl eq_refl))) as K. pose proof (truncate_chunks split (zlen (concat xs)) n xs c ys w n' s' Hf Hl ltac:(lia) E) as X. rewrite Z.sub_diag in X. exact X. }
  split; [exact Hd|]. intros I ->. destruct (imported_facts _ _ _ _ I) as (F & _). pose proof (file_dag_fun _ _ _ F Hd) as X. apply (f_equal (@length _)) in X. rewrite app_length in X. cbn [length] in X. lia.
Qed.

(** ** Balanced imports *)

Section Left.
  Variable bu : option prefix.
  Variable raw : bool.
  Variable t : Z.
  Variable k : Z.
  Hypothesis Hk : 1 <= k.
  Local Notation good := (good bu raw t).
  Definition goodl (l : link) (cs : list bytes) : Prop := lname l = [] /\ lsize l = mod64 (cumulative (lto l)) /\ good (lto l) cs.

  Lemma good_links n cs : good n cs -> node_links n <> [] -> exists css, Forall2 goodl (node_links n) css /\ cs = concat css.
  Proof.
    intros [F U E S] Hn. destruct (links_dag _ _ F Hn) as (p & b & f & css & _ & M & _ & _ & X & _ & _ & ->). exists css. split; [|reflexivity].
    assert (H : forall l, In l (node_links n) -> lname l = [] /\ lsize l = mod64 (cumulative (lto l)) /\ formed bu raw (lto l) /\ enc t (lto l) /\ tsizes_exact (lto l)).
    { intros l Hl. split; [rewrite Forall_forall in M; now apply M|]. split; [apply (S n l (reach_self _) Hl)|]. split; [exact (uniform_link _ _ _ _ _ U Hl)|]. split; [exact (enc_link _ _ _ E Hl)|]. intros m z Hm. apply S. eapply reach_link; eassumption. }
    clear - X H. revert css X H. induction (node_links n) as [|l ls IH]; intros css X H; cbn [map] in X; inversion X; subst; constructor.
    - destruct (H l (or_introl eq_refl)) as (J1 & J2 & J3 & J4 & J5). split; [exact J1|]. split; [exact J2|]. constructor; assumption.
    - apply IH; [assumption|]. intros z Hz. apply H. now right.
  Qed.
  Lemma links_same d : forall ls ls' css, Forall (fun l => perfect k d (lto l)) ls -> Forall (fun l => perfect k d (lto l)) ls' -> Forall2 goodl ls css -> Forall2 goodl ls' css -> (forall c, In c (concat css) -> c <> []) -> ls = ls'.
  Proof.
    induction ls as [|l ls IH]; intros ls' css P P' G G' Hc; inversion G as [|? cs ? css' G1 G2]; subst; inversion G' as [|l' ? ls2 ? G1' G2']; subst; [reflexivity|]. inversion P; subst. inversion P'; subst.
    destruct G1 as (N & Z & [F U E S]), G1' as (N' & Z' & [F' U' E' S']).
    assert (T : lto l = lto l').
    { apply (perfect_same bu raw k d Hk t _ _ cs); auto. intros c Hi. apply Hc. cbn [concat]. apply in_or_app. now left. }
    f_equal; [destruct l, l'; cbn in *; congruence|]. eapply IH; eauto. intros c Hi. apply Hc. cbn [concat]. apply in_or_app. now right.
  Qed.
  Lemma perfect_lengths d : forall ls css, Forall (fun l => perfect k d (lto l)) ls -> Forall2 goodl ls css -> Forall (fun y => length y = Z.to_nat (k ^ Z.of_nat d)) css /\ length css = length ls /\ zlen (concat css) = zlen ls * k ^ Z.of_nat d.
  Proof.
    induction ls as [|l ls IH]; intros css P G; inversion G as [|? cs ? css' G1 G2]; subst; [split; [constructor|split; reflexivity]|]. inversion P; subst. destruct (IH _ H2 G2) as (A & B & C). destruct G1 as (_ & _ & [F _ _ _]).
    pose proof (perfect_count k d Hk _ _ F H1) as X. split; [constructor; [unfold zlen in X; lia|exact A]|]. split; [cbn [length]; now rewrite B|]. cbn [concat]. rewrite zlen_app, C, X. unfold zlen. cbn [length]. lia.
  Qed.
  Lemma Forall2_split {A B} (R : A -> B -> Prop) a b c : Forall2 R (a ++ b) c -> exists c1 c2, c = c1 ++ c2 /\ Forall2 R a c1 /\ Forall2 R b c2.
  Proof. apply Forall2_app_l. Qed.

  Lemma left_cut d : forall n1 n2 P c1 c Q, left_full k d n1 -> left_full k d n2 -> good n1 (P ++ [c1]) -> good n2 (P ++ c :: Q) -> (forall x, In x P -> x <> []) -> cut n1 n2.
  Proof.
    induction d as [|d IH]; intros n1 n2 P c1 c Q L1 L2 G1 G2 Hc; cbn [left_full] in L1, L2; [apply cut_leaf; assumption|].
    destruct L1 as (A1 & x & X1 & _ & P1 & R1), L2 as (A2 & z & X2 & _ & P2 & R2). pose proof (Z.pow_pos_nonneg k (Z.of_nat d) ltac:(lia) ltac:(lia)) as HK. set (K := k ^ Z.of_nat d) in *.
    destruct (good_links _ _ G1) as (css1 & S1 & E1); [rewrite X1; apply last_not_nil|]. destruct (good_links _ _ G2) as (css2 & S2 & E2); [rewrite X2; apply last_not_nil|].
    rewrite X1 in S1. rewrite X2 in S2. apply Forall2_app_l in S1 as (ca1 & cx' & -> & S1 & T1). inversion T1 as [|? cx ? ? Gx T1']; subst. inversion T1'; subst. clear T1 T1'.
    rewrite concat_app in E1. cbn [concat] in E1. rewrite app_nil_r in E1.
    destruct (perfect_lengths d _ _ P1 S1) as (Q1 & Q2 & Q3). fold K in Q3, Q1.
    pose proof (file_dag_some _ _ (g_dag _ _ _ _ _ (proj2 (proj2 Gx)))) as Hcx. apply pos_zlen in Hcx. pose proof (left_full_count k d Hk _ _ (g_dag _ _ _ _ _ (proj2 (proj2 Gx))) R1) as Bx. fold K in Bx.
    (* the first links of the longer file *)
    assert (HA : exists A y B, A2 ++ [z] = A ++ y :: B /\ length A = length A1 /\ Forall (fun l => perfect k d (lto l)) A /\ left_full k d (lto y) /\ (B = [] \/ perfect k d (lto y))).
    { pose proof S2 as S2'. apply Forall2_app_l in S2' as (ca2 & cz' & -> & S2' & T2). inversion T2 as [|? cz ? ? Gz T2']; subst. inversion T2'; subst. destruct (perfect_lengths d _ _ P2 S2') as (_ & _ & W3). fold K in W3.
      pose proof (left_full_count k d Hk _ _ (g_dag _ _ _ _ _ (proj2 (proj2 Gz))) R2) as Bz. fold K in Bz.
      assert (Hle : zlen A1 <= zlen A2).
      { apply (f_equal zlen) in E1. apply (f_equal zlen) in E2. rewrite concat_app in E2. cbn [concat] in E2. rewrite app_nil_r in E2. rewrite !zlen_app in E1, E2. unfold zlen at 2 in E1. unfold zlen at 2 in E2. cbn [length] in E1, E2.
        unfold bytes in *. assert (zlen A1 * K < (zlen A2 + 1) * K) by lia. apply Z.mul_lt_mono_pos_r in H; lia. }
      destruct (Z.eq_dec (zlen A1) (zlen A2)) as [He|He].
      - exists A2, z, []. split; [reflexivity|]. split; [unfold zlen in He; lia|]. split; [exact P2|]. split; [exact R2|now left].
      - destruct (skipn (length A1) A2) as [|y B] eqn:Es; [apply (f_equal (@length _)) in Es; rewrite skipn_length in Es; cbn [length] in Es; unfold zlen in *; lia|].
        assert (Ea : A2 = firstn (length A1) A2 ++ y :: B) by (rewrite <- Es; symmetry; apply firstn_skipn). rewrite Ea in P2. apply Forall_app in P2 as (Pa & Pb). inversion Pb; subst.
        exists (firstn (length A1) A2), y, (B ++ [z]). split; [rewrite Ea at 1; now rewrite <- app_assoc|]. split; [rewrite firstn_length; unfold zlen in *; lia|]. split; [exact Pa|]. split; [now apply perfect_left_full|now right]. }
    destruct HA as (A & y & B & X3 & Hlen & PA & Ry & Hy). rewrite X3 in S2, X2. apply Forall2_app_l in S2 as (ca & cb' & -> & SA & SB). inversion SB as [|? cy ? cb Gy SB']; subst.
    destruct (perfect_lengths d _ _ PA SA) as (W1 & W2 & W3). fold K in W1, W3.
    rewrite concat_app in E2. cbn [concat] in E2.
    assert (Ez : zlen A = zlen A1) by (unfold zlen; now rewrite Hlen). rewrite Ez in W3.
    assert (HP : exists P', P = concat ca1 ++ P' /\ cx = P' ++ [c1]).
    { destruct (exists_last (l := cx)) as (P' & v & ->); [intros ->; unfold zlen in Hcx; cbn in Hcx; lia|]. rewrite app_assoc in E1. apply app_inj_tail in E1 as (-> & ->). exists P'. auto. }
    destruct HP as (P' & -> & ->).
    assert (HE : concat ca1 = concat ca /\ P' ++ c :: Q = cy ++ concat cb).
    { rewrite <- app_assoc in E2. apply app_inj_len in E2; [exact E2|]. unfold zlen in Q3, W3. unfold bytes in *. lia. }
    destruct HE as (E3 & E4). assert (ca1 = ca) as -> by (eapply concat_split; [exact Q1|exact W1|congruence|exact E3]).
    assert (A1 = A) as -> by (eapply (links_same d); eauto; intros v Hv; apply Hc, in_or_app; now left).
    assert (HQ : exists Q', cy = P' ++ c :: Q').
    { destruct Hy as [->|Hy]; [inversion SB'; subst; cbn [concat] in E4; rewrite app_nil_r in E4; eauto|]. pose proof (perfect_count k d Hk _ _ (g_dag _ _ _ _ _ (proj2 (proj2 Gy))) Hy) as Ny. fold K in Ny.
      rewrite zlen_app in Bx. unfold zlen at 2 in Bx. cbn [length] in Bx. exists (skipn (S (length P')) cy). rewrite <- (firstn_skipn (S (length P')) cy) at 1. change (P' ++ c :: skipn (S (length P')) cy) with (P' ++ [c] ++ skipn (S (length P')) cy). rewrite app_assoc. f_equal.
      apply (f_equal (firstn (S (length P')))) in E4. rewrite !firstn_app in E4. replace (S (length P') - length P')%nat with 1%nat in E4 by lia. rewrite (firstn_all2 P') in E4 by lia. cbn [firstn] in E4. rewrite E4.
      replace (S (length P') - length cy)%nat with 0%nat by (unfold zlen in *; unfold bytes in *; lia). cbn [firstn]. now rewrite app_nil_r. }
    destruct HQ as (Q' & ->). apply (cut_node n1 n2 A x y B X1 X2). apply (IH _ _ P' c1 c Q' R1 Ry (proj2 (proj2 Gx)) (proj2 (proj2 Gy))). intros v Hv. apply Hc, in_or_app. now right.
  Qed.
End Left.

Lemma truncate_balanced : forall split dbp xs c1 c2 ys r1 r2 w n' s', 1 <= pr_maxlinks dbp -> pr_raw dbp = true -> imported false dbp (xs ++ [c1]) r1 -> imported false dbp (xs ++ (c1 ++ c2) :: ys) r2 -> c2 <> [] -> zlen (concat (xs ++ (c1 ++ c2) :: ys)) < 9223372036854775808 ->
  (forall d : nat, zlen xs + 1 <= pr_maxlinks dbp ^ Z.of_nat d -> zlen xs + 1 + zlen ys <= pr_maxlinks dbp ^ Z.of_nat d) ->
  truncate_to split (zlen (concat (xs ++ [c1]))) r2 w = (Ok n', s') -> n' = r1.
Proof.
  intros split dbp xs c1 c2 ys r1 r2 w n' s' Hk Hr I1 I2 Hc2 Hl Hd E. eapply truncate_cut; eauto.
  destruct (imported_facts _ _ _ _ I1) as (F1 & U1 & E1 & S1 & _ & Hc). destruct (imported_facts _ _ _ _ I2) as (F2 & U2 & E2 & S2 & _ & _).
  destruct I1 as (_ & _ & f1 & fi1 & w1 & w1' & H1), I2 as (_ & _ & f2 & fi2 & w2 & w2' & H2). cbv iota in H1, H2.
  destruct (balanced_facts _ _ _ _ _ _ _ H1) as (_ & _ & d1 & cs1 & L1 & G1 & B1). destruct (balanced_facts _ _ _ _ _ _ _ H2) as (_ & _ & d2 & cs2 & L2 & G2 & B2).
  rewrite (file_dag_fun _ _ _ G1 F1) in B1. rewrite (file_dag_fun _ _ _ G2 F2) in B2.
  pose proof (left_full_count _ d1 Hk _ _ F1 L1) as N1. pose proof (left_full_count _ d2 Hk _ _ F2 L2) as N2.
  assert (Z1 : zlen (xs ++ [c1]) = zlen xs + 1) by (rewrite zlen_app; reflexivity). assert (Z2 : zlen (xs ++ (c1 ++ c2) :: ys) = zlen xs + 1 + zlen ys) by (rewrite zlen_app; unfold zlen, bytes in *; cbn [length]; lia).
  unfold bytes in *. rewrite Z1 in B1, N1. rewrite Z2 in B2, N2. pose proof (Hd d1 N1) as N3. pose proof (zlen_nonneg ys) as Y0.
  assert (d1 = d2) as <-.
  { destruct (Nat.lt_trichotomy d1 d2) as [H|[H|H]]; [|exact H|].
    - destruct (B2 ltac:(lia)) as (K & X). assert (X' : pr_maxlinks dbp ^ (Z.of_nat d2 - 1) < pr_maxlinks dbp ^ Z.of_nat d1) by lia. apply Z.pow_lt_mono_r_iff in X'; lia.
    - destruct (B1 ltac:(lia)) as (K & X). assert (X' : pr_maxlinks dbp ^ (Z.of_nat d1 - 1) < pr_maxlinks dbp ^ Z.of_nat d2) by lia. apply Z.pow_lt_mono_r_iff in X'; lia. }
  apply (left_cut (pr_builder dbp) (pr_raw dbp) TFile (pr_maxlinks dbp) Hk d1 r1 r2 xs c1 (c1 ++ c2) ys L1 L2); [constructor; assumption|constructor; assumption|].
  intros v Hv. apply Hc, in_or_app. now left.
Qed.

(** ** Cases *)

Lemma cut_works (x : res node * mst) : match fst x with Ok _ => true | _ => false end = true -> exists n' s', x = (Ok n', s').
Proof. destruct x as [[n'| | |] s']; try discriminate. eauto. Qed.
Lemma cut_differs (x : res node * mst) r : match fst x with Ok n' => negb (node_eqb n' r) | _ => false end = true -> exists n' s', x = (Ok n', s') /\ n' <> r.
Proof. destruct x as [[n'| | |] s']; try discriminate. cbn [fst]. intros H. exists n', s'. split; [reflexivity|]. intros ->. rewrite node_eqb_refl in H. discriminate. Qed.
Definition ab_c : list bytes := [[x61; x62]; [x63]].
Definition ab_cd : list bytes := [[x61; x62]; [x63; x64]].
Definition ab_cd_ef : list bytes := [[x61; x62]; [x63; x64]; [x65; x66]].
Lemma balanced_imports raw : imported false (two_links raw) ab_c (bal raw ab_c) /\ imported false (two_links raw) ab_cd (bal raw ab_cd) /\ imported false (two_links raw) ab_cd_ef (bal raw ab_cd_ef).
Proof. split; [|split]; destruct raw; (apply bal_imported; [vm_compute; reflexivity|discriminate|reflexivity]). Qed.
Lemma trickle_imports raw : imported true (two_links raw) ab_c (tri raw ab_c) /\ imported true (two_links raw) ab_cd (tri raw ab_cd) /\ imported true (two_links raw) ab_cd_ef (tri raw ab_cd_ef).
Proof. split; [|split]; destruct raw; (apply tri_imported; [vm_compute; reflexivity|discriminate|cbn; lia|reflexivity]). Qed.
Lemma leaf_refuted : exists split dbp xs c1 c2 r1 r2 w n' s', imported false dbp (xs ++ [c1]) r1 /\ imported false dbp (xs ++ [c1 ++ c2]) r2 /\ c2 <> [] /\ truncate_to split (zlen (concat (xs ++ [c1]))) r2 w = (Ok n', s') /\ n' <> r1.
Proof.
  destruct (balanced_imports false) as (I1 & I2 & _). destruct (cut_differs (truncate_to bytewise (zlen (concat ab_c)) (bal false ab_cd) full) (bal false ab_c)) as (n' & s' & E & H); [vm_compute; reflexivity|].
  exists bytewise, (two_links false), [[x61; x62]], [x63], [x64], (bal false ab_c), (bal false ab_cd), full, n', s'. split; [exact I1|]. split; [exact I2|]. split; [discriminate|]. split; [exact E|exact H].
Qed.
Lemma depth_refuted : exists split dbp xs c1 c2 ys r1 r2 w n' s', pr_raw dbp = true /\ imported false dbp (xs ++ [c1]) r1 /\ imported false dbp (xs ++ (c1 ++ c2) :: ys) r2 /\ c2 <> [] /\ truncate_to split (zlen (concat (xs ++ [c1]))) r2 w = (Ok n', s') /\ n' <> r1.
Proof.
  destruct (balanced_imports true) as (I1 & _ & I2). destruct (cut_differs (truncate_to bytewise (zlen (concat ab_c)) (bal true ab_cd_ef) full) (bal true ab_c)) as (n' & s' & E & H); [vm_compute; reflexivity|].
  exists bytewise, (two_links true), [[x61; x62]], [x63], [x64], [[x65; x66]], (bal true ab_c), (bal true ab_cd_ef), full, n', s'. split; [reflexivity|]. split; [exact I1|]. split; [exact I2|]. split; [discriminate|]. split; [exact E|exact H].
Qed.
