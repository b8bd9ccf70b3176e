(** The tracked size change of a sharded directory, and which shape a directory has
    under one threshold. *)
From Verif Require Import Base Pb PbProofs FSNode FSNodeProofs Dag DagProofs Builder HashBits Bitfield SpecHash HashProofs Hamt SpecHamt HamtExec HamtRep HamtNode HamtRun HamtFacts Walk WalkProofs WalkDir HamtAbs Directory SpecDir DirExec DirBasic DirectoryProofs DirFacts.

Lemma cid_len_two p : 2 <= cid_len p.
Proof.
  assert (H : forall x, 1 <= vlen x). { intros x. unfold vlen, varint, zlen. cbn [enc_varint]. destruct (_ <? _); cbn [length]; lia. }
  unfold cid_len. pose proof (H (p_mhtype p)). pose proof (H (p_mhlen p)). pose proof (H (p_codec p)). destruct (_ =? _); lia.
Qed.
Lemma osize_nonneg k v : 0 <= osize k v.
Proof. destruct v as [e|]; cbn [osize]; [|lia]. unfold entry_size, zlen. cbn [fst snd]. pose proof (cid_len_nonneg (node_prefix (snd e))). lia. Qed.
Lemma osize_three k e : k <> [] -> 3 <= osize k (Some e).
Proof.
  intros Hk. cbn [osize]. unfold entry_size, zlen. cbn [fst snd]. pose proof (cid_len_two (node_prefix (snd e))). destruct k; [congruence|]. cbn [length]. lia.
Qed.
Lemma has_size_nonneg d z : has_size d z -> 0 <= z.
Proof.
  intros (l & _ & ->). induction l as [|e l IH]; cbn [map sumZ fold_right]; [lia|]. unfold sumZ in IH.
  assert (0 <= entry_size e) by (unfold entry_size, zlen; pose proof (cid_len_nonneg (node_prefix (snd (snd e)))); lia). lia.
Qed.
Lemma size_empty d z : has_size d z -> (forall x, d x = None) -> z = 0.
Proof. intros (l & Hl & ->) He. destruct l as [|[k e] l]; [reflexivity|]. assert (d k = Some e) by (apply Hl; now left). rewrite He in H. discriminate. Qed.
Lemma size_zero d z x : has_size d z -> z <= 0 -> d x = None.
Proof.
  intros H Hz. destruct (d x) as [e|] eqn:E; [|reflexivity]. exfalso. pose proof (has_size_put d z x None H) as H1. rewrite E in H1. apply has_size_nonneg in H1. cbn [osize] in H1.
  unfold entry_size, zlen in H1. cbn [fst snd] in H1. pose proof (cid_len_two (node_prefix (snd e))). lia.
Qed.
Lemma pad_three W : valid_width W -> (pad W <= 3)%nat.
Proof.
  intros Hv. destruct (proj1 (valid_lg W) Hv) as (lg & H1 & H2 & _). apply Logtwo_ok in H2 as [_ ->]. unfold pad.
  assert (lg = 3 \/ lg = 4 \/ lg = 5 \/ lg = 6 \/ lg = 7 \/ lg = 8 \/ lg = 9 \/ lg = 10) as Hc by lia.
  repeat (destruct Hc as [->|Hc]; [vm_compute; lia|]). subst lg. vm_compute. lia.
Qed.

Section Shape.
  Variables (hash : bytes -> bytes) (n : nat) (W : Z) (b : option prefix).
  Hypothesis Hn : (2 <= n)%nat.
  Hypothesis Hh : forall k, length (hash k) = n.
  Hypothesis Hv : valid_width W.
  Variable D : bytes.
  Hypothesis HD : FolderPBData = Ok D.
  Let P := eq (proto_prefix b).
  Notation dgood := (dgood hash n W P D).
  Notation good := (good hash n W P).

  (** What a link taken out of the shard subtracts from the estimate. *)
  Lemma old_size d k old : option_map lentry old = d k -> prefixed W k old ->
    exists p, 0 <= p <= 3 /\ match old with Some l => linkSize (lname l) (lto l) | None => 0 end = osize k (d k) + p.
  Proof.
    intros E Hp. rewrite <- E. destruct old as [l|]; cbn [option_map osize] in *; [|exists 0; lia]. cbn [prefixed] in Hp. apply labelled_len in Hp. pose proof (pad_three W Hv).
    exists (zlen (lname l) - zlen k). unfold linkSize, entry_size, zlen. cbn [fst snd lentry]. split; lia.
  Qed.
  Lemma hAdd_change d h w k nd r h' w' : good d (h_shard h) w -> k <> [] -> hAddChild hash k nd (h, w) = (r, (h', w')) ->
    match r with Ok _ => exists p, 0 <= p <= 3 /\ h_change h' = h_change h + (newSize k (Some nd) - osize k (d k)) - p | _ => h_change h' = h_change h end.
  Proof.
    intros Hg Hk. unfold hAddChild. pose proof (good_swap hash n W P Hn Hh (HPb b) d (h_shard h) w k nd Hg Hk) as S. destruct (Swap hash k nd (h_shard h, w)) as [rs [s w1]]. destruct S as [_ S].
    destruct rs as [old|e| |]; try contradiction; intros H; injection H as <- <- <-; [|reflexivity]. destruct S as (_ & S1 & _ & S2). destruct (old_size d k old S1 S2) as (p & Hp & E). exists p. split; [assumption|].
    cbn [h_change newSize]. destruct old; lia.
  Qed.
  Lemma hRemove_change d h w k r h' : good d (h_shard h) w -> k <> [] -> hRemoveChild hash w k h = (r, h') ->
    match r with Ok _ => exists p, 0 <= p <= 3 /\ h_change h' = h_change h + (0 - osize k (d k)) - p | _ => h_change h' = h_change h end.
  Proof.
    intros Hg Hk. unfold hRemoveChild. pose proof (good_take hash n W P Hn Hh (HPb b) d (h_shard h) w k Hg Hk) as S. destruct (Take hash w k (h_shard h)) as [rs s].
    destruct rs as [old|e| |]; try contradiction; intros H; injection H as <- <-; [|reflexivity]. destruct S as (S1 & _ & _ & S2). destruct (old_size d k old S1 S2) as (p & Hp & E). exists p. split; [assumption|].
    cbn [h_change]. destruct old; lia.
  Qed.

  (** One operation on a sharded directory. *)
  Definition hstep (T z z' c : Z) (op : dop) (r : res hval) (y : directory) : Prop :=
    match y with
    | DBasic _ => r = Ok VUnit /\ (z' < T \/ z = 0 /\ c + z' < 0 /\ 3 <= z')
    | DHamt h' => op = DReload /\ r = Ok VUnit /\ z' = z /\ h_change h' = 0 \/
        exists p, 0 <= p <= 3 /\ h_change h' = c + (z' - z) - p /\ (0 <= c + (z' - z) \/ T <= z' \/ z' = z /\ p = 0)
    end.
  Lemma stay T z c op r h' : h_change h' = c -> hstep T z z c op r (DHamt h').
  Proof. intros E. right. exists 0. lia. Qed.

  Lemma hamt_step d h w T op r st' z z' : 0 < T -> dgood d (DHamt h, w) -> dname op <> Some [] -> dexec hash W false T op (DHamt h, w) r st' ->
    has_size d z -> has_size (deffect d (mkDobs op w (snd st') r)) z' -> hstep T z z' (h_change h) op r (fst st').
  Proof.
    intros HT Hd Hk H Hz Hz'. pose proof Hd as [H0 Hg]. cbn [fst snd] in Hg.
    assert (Hsame : forall k nd v, has_size (after d k nd) v -> v = z + (newSize k nd - osize k (d k))).
    { intros k nd v Hv0. unfold after in Hv0. eapply size_unique; [exact Hv0|]. rewrite newSize_osize. now apply has_size_put. }
    assert (Hkeep : deffect d (mkDobs op w (snd st') r) = d -> z' = z) by (intros E; rewrite E in Hz'; eapply size_unique; eauto).
    destruct op as [k nd|k|k| | | |nd]; cbn [dname] in Hk; try (assert (Hk' : k <> []) by (intros ->; now apply Hk)); cbn [dexec] in H.
    - destruct H as (r0 & H & ->). cbn [dAddChild] in H. destruct H as (ra & h1 & Hm & H). destruct (needsBasic_spec hash n W P Hn Hh (HPb b) w false T k _ h ra h1 d Hg Hk' Hm) as (Hg1 & Ec & Hr).
      destruct ra as [[|]|e| |]; try contradiction.
      + destruct H as (rb & h2 & Hd2 & H). unfold det in Hd2. pose proof (switchToBasic_spec hash n W P Hh (HPb b) D HD w d h1 Hg1) as S. rewrite Hd2 in S. destruct S as (_ & Ec2 & S). destruct rb as [b1|e| |]; try contradiction.
        * destruct (bAddChild_spec P D d b1 k nd S) as (b' & E & _). rewrite E in H. destruct H as [-> ->]. cbn [rmap fst snd hstep]. split; [reflexivity|]. cbn [rmap snd deffect q_res q_op] in Hz'. destruct Hr as (_ & Hr1 & Hr2).
          pose proof (Hsame k (Some nd) z' Hz') as Ez. destruct (Z_le_gt_dec z 0) as [Hz0|Hz0].
          -- right. pose proof (has_size_nonneg _ _ Hz). assert (Ek : d k = None) by (apply (size_zero d z); assumption). rewrite Ek in *. cbn [osize] in *. pose proof (osize_three k (node_entry nd) Hk') as H3.
             rewrite newSize_osize in *. cbn [option_map] in *. lia.
          -- left. apply Hr2; [reflexivity| |exact Hz']. destruct Hz as (l & Hl & ->). destruct l as [|[k1 e1] l]; [cbn in Hz0; lia|]. exists k1. assert (E1 : d k1 = Some e1) by (apply Hl; now left). congruence.
        * destruct H as [-> ->]. cbn [rmap fst snd] in *. rewrite Hkeep by reflexivity. apply stay. congruence.
      + destruct (hAddChild hash k nd (h1, w)) as [r1 [h2 w1]] eqn:Ea. destruct H as [-> ->]. pose proof (hAdd_change d h1 w k nd r1 h2 w1 Hg1 Hk' Ea) as S. pose proof (hAdd_spec hash n W P Hn Hh (HPb b) d h1 w k nd Hg1 Hk') as A. rewrite Ea in A. destruct A as [_ A].
        destruct r1 as [u|e| |]; try contradiction; cbn [rmap fst snd] in *; [|rewrite Hkeep by reflexivity; apply stay; congruence].
        destruct S as (p & Hp & S). right. exists p. pose proof (Hsame k (Some nd) z' Hz') as Ez. split; [assumption|]. split; [lia|]. destruct Hr as [Hr|[Hr|Hr]]; [lia|left; lia|]. right. left. now apply Hr.
      + destruct H as [-> ->]. cbn [rmap fst snd] in *. rewrite Hkeep by reflexivity. now apply stay.
    - destruct H as (r0 & H & ->). cbn [dRemoveChild] in H. destruct H as (ra & h1 & Hm & H). destruct (needsBasic_spec hash n W P Hn Hh (HPb b) w false T k _ h ra h1 d Hg Hk' Hm) as (Hg1 & Ec & Hr).
      destruct ra as [[|]|e| |]; try contradiction.
      + destruct H as (rb & h2 & Hd2 & H). unfold det in Hd2. pose proof (switchToBasic_spec hash n W P Hh (HPb b) D HD w d h1 Hg1) as S. rewrite Hd2 in S. destruct S as (_ & Ec2 & S). destruct rb as [b1|e| |]; try contradiction.
        * pose proof (bRemoveChild_spec P D d b1 k S) as R. destruct (d k) as [e|] eqn:E.
          -- destruct R as (b' & R & _). rewrite R in H. destruct H as [-> ->]. cbn [rmap fst snd hstep]. split; [reflexivity|]. left. apply (proj2 (proj2 Hr)); [reflexivity|exists k; congruence|exact Hz'].
          -- rewrite R in H. destruct H as [-> ->]. cbn [rmap fst snd] in *. rewrite Hkeep by reflexivity. apply stay. congruence.
        * destruct H as [-> ->]. cbn [rmap fst snd] in *. rewrite Hkeep by reflexivity. apply stay. congruence.
      + destruct (hRemoveChild hash w k h1) as [r1 h2] eqn:Ea. destruct H as [-> ->]. pose proof (hRemove_change d h1 w k r1 h2 Hg1 Hk' Ea) as S. pose proof (hRemove_spec hash n W P Hn Hh (HPb b) d h1 w k Hg1 Hk') as A. rewrite Ea in A.
        destruct r1 as [u|e| |]; try contradiction; cbn [rmap fst snd] in *; [|rewrite Hkeep by reflexivity; apply stay; congruence].
        destruct S as (p & Hp & S). right. exists p. pose proof (Hsame k None z' Hz') as Ez. cbn [newSize] in Ez. split; [assumption|]. split; [lia|]. destruct Hr as [Hr|[Hr|Hr]]; [lia|left; cbn [newSize] in Hr; lia|]. right. left. now apply Hr.
      + destruct H as [-> ->]. cbn [rmap fst snd] in *. rewrite Hkeep by reflexivity. now apply stay.
    - unfold dFind in H. unfold hFind in H. rewrite Hkeep by (unfold deffect; cbn [q_res q_op]; now destruct r). destruct (Find hash w k (h_shard h)) as [[[l|]|e| |] s]; destruct H as [-> _]; now apply stay.
    - destruct H as (r0 & H & ->). rewrite Hkeep by (unfold deffect; cbn [q_res q_op]; now destruct (rmap _ r0)). inversion H; subst; now apply stay.
    - rewrite Hkeep by (unfold deffect; cbn [q_res q_op]; now destruct r). cbn [dEach] in H. destruct (ForEachLink _ _ _) as [r0 [s acc]]. destruct H as [-> _]. now apply stay.
    - assert (Ez : z' = z) by (apply Hkeep; unfold deffect; cbn [q_res q_op]; now destruct r). subst z'. destruct r as [v|e| |].
      + destruct (reload_fresh hash n W b Hh D d (DHamt h) w false T v st' Hd H eq_refl) as (h' & E & Ec). rewrite E. left. split; [reflexivity|]. split; [|auto]. destruct (dReload (DHamt h, w)) as [r0 st1]. destruct H as [_ H]. destruct r0; cbn in H; congruence.
      + pose proof (reload_same hash n W b Hh D HD d (DHamt h) w false T (Err e) st' Hd H) as Hs. unfold dReload in H. cbn [dGetNode] in H.
        destruct (Node (h_shard h) w) as [r1 w1]. destruct r1 as [nd|e1| |]; try (destruct H as [-> _]; now apply stay). destruct (dserv_add nd None w1) as [[u|e2| |] w2]; try (destruct H as [-> _]; now apply stay).
        destruct (NewDirectoryFromNode (seal nd)) as [d3|e3| |]; try (destruct H as [-> _]; now apply stay). destruct H as [_ H]. discriminate.
      + exfalso. destruct (dexec_ok hash n W P Hn Hh (HPb b) Hv D HD false T DReload d (DHamt h) w Panic st' Hd ltac:(discriminate) H) as (_ & X & _). exact X.
      + exfalso. destruct (dexec_ok hash n W P Hn Hh (HPb b) Hv D HD false T DReload d (DHamt h) w Fuel st' Hd ltac:(discriminate) H) as (_ & X & _). exact X.
    - rewrite Hkeep by (unfold deffect; cbn [q_res q_op]; now destruct r). destruct (dserv_add nd None _). destruct H as [-> _]. now apply stay.
  Qed.

  (** One operation on a basic directory. *)
  Lemma basic_step d bb w T op r st' z z' : 0 < T -> dgood d (DBasic bb, w) -> dname op <> Some [] -> dexec hash W false T op (DBasic bb, w) r st' ->
    has_size d z -> has_size (deffect d (mkDobs op w (snd st') r)) z' -> z < T ->
    match fst st' with
    | DBasic _ => z' < T
    | DHamt h' => T <= z' /\ exists p, 0 <= p <= 3 /\ h_change h' = z' - z - p
    end.
  Proof.
    intros HT Hd Hk H Hz Hz' L. pose proof Hd as [H0 Hg]. cbn [fst snd] in Hg.
    assert (Hkeep : deffect d (mkDobs op w (snd st') r) = d -> z' = z) by (intros E; rewrite E in Hz'; eapply size_unique; eauto).
    assert (Hoth : sharded (fst st') = false -> z' <= z -> match fst st' with DBasic _ => z' < T | DHamt h' => T <= z' /\ exists p, 0 <= p <= 3 /\ h_change h' = z' - z - p end).
    { intros Hs Hle. destruct (fst st'); [lia|discriminate]. }
    destruct op as [k nd|k|k| | | |nd]; cbn [dname] in Hk; try (assert (Hk' : k <> []) by (intros ->; now apply Hk)).
    - cbn [dexec] in H. destruct H as (r0 & H & ->).
      assert (Hza : has_size (dput d k (Some (node_entry nd))) (z + (newSize k (Some nd) - osize k (d k)))) by (rewrite newSize_osize; now apply has_size_put).
      destruct (up hash n W b Hn Hh D d bb w false T k nd _ r0 st' Hd Hk' Hza H) as [U1 U2]. destruct r0 as [[]|e| |]; cbn [rmap] in *.
      + specialize (U1 eq_refl). cbn [deffect q_res q_op] in Hz'. pose proof (size_unique _ _ _ Hz' Hza) as Ez. destruct (fst st') as [b1|h'] eqn:Es; cbn [sharded] in U1; [destruct (Z_lt_ge_dec z' T); [assumption|]; destruct U1 as [_ U1]; discriminate U1; lia|].
        split; [destruct (proj1 U1 eq_refl); lia|]. cbn [dAddChild] in H. destruct (needsToSwitchToHAMTDir T k (Some nd) bb); [|destruct (bAddChild k nd bb); destruct H as [_ ->]; discriminate].
        pose proof (switchToSharding_spec hash n W P Hn Hh (HPb b) Hv D w d bb Hg H0) as S. destruct (switchToSharding hash W w bb) as [h|e| |]; try contradiction; [|destruct H; discriminate]. destruct S as [S Sc].
        destruct (hAddChild hash k nd (h, w)) as [r1 [h1 w1]] eqn:Ea. pose proof (hAdd_change d h w k nd r1 h1 w1 S Hk' Ea) as C.
        destruct r1; destruct H as [X ->]; try discriminate. cbn [fst] in Es. injection Es as <-. destruct C as (p & Hp & C). exists p. split; [assumption|]. lia.
      + apply Hoth; [apply U2; discriminate|]. rewrite Hkeep by reflexivity. lia.
      + apply Hoth; [apply U2; discriminate|]. rewrite Hkeep by reflexivity. lia.
      + apply Hoth; [apply U2; discriminate|]. rewrite Hkeep by reflexivity. lia.
    - apply Hoth; [eapply others with (x := DBasic bb); [exact H|reflexivity]|]. unfold deffect in Hz', Hkeep. cbn [q_res q_op] in *. destruct r; try (rewrite Hkeep by reflexivity; lia).
      pose proof (has_size_put d z k None Hz) as Hp. rewrite (size_unique _ _ _ Hz' Hp). cbn [osize]. pose proof (osize_nonneg k (d k)). lia.
    - apply Hoth; [eapply others with (x := DBasic bb); [exact H|exact I]|]. rewrite Hkeep by (unfold deffect; cbn [q_res q_op]; now destruct r). lia.
    - apply Hoth; [eapply others with (x := DBasic bb); [exact H|exact I]|]. rewrite Hkeep by (unfold deffect; cbn [q_res q_op]; now destruct r). lia.
    - apply Hoth; [eapply others with (x := DBasic bb); [exact H|exact I]|]. rewrite Hkeep by (unfold deffect; cbn [q_res q_op]; now destruct r). lia.
    - apply Hoth; [eapply reload_same with (x := DBasic bb); eauto|]. rewrite Hkeep by (unfold deffect; cbn [q_res q_op]; now destruct r). lia.
    - apply Hoth; [eapply others with (x := DBasic bb); [exact H|exact I]|]. rewrite Hkeep by (unfold deffect; cbn [q_res q_op]; now destruct r). lia.
  Qed.

  Lemma dgood_size d st : dgood d st -> exists z, has_size d z.
  Proof. intros [_ H]. destruct st as [[bb|h] w]; cbn [fst snd] in H; [exists (b_est bb); eapply bgood_size; exact H|eapply good_size; [exact Hh|exact (HPb b)|exact H]]. Qed.

  (** With one threshold, a basic directory is below it. *)
  Definition below (T : Z) (d : dir) (st : directory * world) : Prop :=
    forall z, has_size d z -> match fst st with DBasic _ => z < T | DHamt h => z = 0 -> -3 <= h_change h end.
  Lemma below_step d st T op r st' : 0 < T -> dgood d st -> dname op <> Some [] -> below T d st -> dexec hash W false T op st r st' ->
    dgood (deffect d (mkDobs op (snd st) (snd st') r)) st' /\ below T (deffect d (mkDobs op (snd st) (snd st') r)) st'.
  Proof.
    intros HT Hd Hk Hb H. destruct st as [x w]. destruct (dexec_ok hash n W P Hn Hh (HPb b) Hv D HD false T op d x w r st' Hd Hk H) as (_ & _ & Hd' & _). split; [exact Hd'|].
    cbn [snd] in *. intros z' Hz'. destruct (dgood_size d _ Hd) as [z Hz]. specialize (Hb z Hz). destruct x as [bb|h]; cbn [fst] in Hb.
    - pose proof (basic_step d bb w T op r st' z z' HT Hd Hk H Hz Hz' Hb) as S. destruct (fst st'); [assumption|]. lia.
    - pose proof (hamt_step d h w T op r st' z z' HT Hd Hk H Hz Hz') as S. pose proof (has_size_nonneg _ _ Hz). destruct (fst st'); cbn [hstep] in S; [destruct S as [_ [S|S]]; [assumption|]; lia|]. intros E0. destruct S as [(_ & _ & _ & S)|(p & Hp & S1 & [S2|[S2|[S2 S3]]])]; lia.
  Qed.
  Lemma below_run T cs : 0 < T -> forall d st h st', dgood d st -> below T d st -> named_dops (map snd cs) -> Forall (fun c => fst c = T) cs -> drun hash W false st cs h st' ->
    dgood (dcontents d h) st' /\ below T (dcontents d h) st'.
  Proof.
    intros HT. induction cs as [|[T1 op] cs IH]; intros d st h st' Hd Hb Hk HF H; inversion H; subst; [auto|]. apply Forall_cons_iff in HF. destruct HF as [F1 F2]. cbn [fst] in F1. subst T1. inversion Hk as [|? ? K1 K2]; subst.
    match goal with X : dexec _ _ _ _ _ _ _ _ |- _ => destruct (below_step d st T op r st1 HT Hd K1 Hb X) as [Hd1 Hb1] end. cbn [dcontents fold_left]. eapply IH; eauto.
  Qed.

  (** ... and a sharded one has reached it, if the size never falls back. *)
  Lemma exact_run T cs : 0 < T -> forall d st h st', dgood d st -> below T d st -> (forall z, has_size d z -> sharded (fst st) = true -> T <= z) -> named_dops (map snd cs) -> Forall (fun c => fst c = T) cs ->
    drun hash W false st cs h st' -> keeps T d h -> forall z, has_size (dcontents d h) z -> sharded (fst st') = (T <=? z).
  Proof.
    intros HT. induction cs as [|[T1 op] cs IH]; intros d st h st' Hd Hb Hs Hk HF H Hkp z Hz; inversion H; subst.
    - cbn [dcontents fold_left] in Hz. specialize (Hb z Hz). specialize (Hs z Hz). destruct (fst st'); cbn [sharded] in *; [lia|]. specialize (Hs eq_refl). lia.
    - apply Forall_cons_iff in HF. destruct HF as [F1 F2]. cbn [fst] in F1. subst T1. inversion Hk as [|? ? K1 K2]; subst. cbn [keeps] in Hkp. destruct Hkp as [Kp1 Kp2].
      match goal with X : dexec _ _ _ _ _ _ _ _ |- _ => rename X into He end. destruct (below_step d st T op r st1 HT Hd K1 Hb He) as [Hd1 Hb1]. cbn [dcontents fold_left] in Hz. eapply IH; try eassumption.
      intros z1 Hz1 Hs1. destruct (dgood_size d st Hd) as [z0 Hz0]. destruct st as [x w]. cbn [snd] in *. destruct x as [bb|hh].
      + specialize (Hb z0 Hz0). cbn [fst] in Hb. pose proof (basic_step d bb w T op r st1 z0 z1 HT Hd K1 He Hz0 Hz1 Hb) as S. destruct (fst st1); [discriminate|apply S].
      + apply (Kp1 z0 z1 Hz0 Hz1). apply Hs; [assumption|reflexivity].
  Qed.

  (** While a directory stays sharded, its size stays at or above the threshold or the
      size before. *)
  Lemma stays_run T cs : 0 < T -> forall base d h0 w h st', dgood d (DHamt h0, w) -> (forall z, has_size d z -> h_change h0 <= z - base /\ (T <= z \/ base <= z)) -> named_dops cs ->
    stays hash W T (DHamt h0, w) cs h st' -> forall z, has_size (dcontents d h) z -> T <= z \/ base <= z.
  Proof.
    intros HT base. induction cs as [|op cs IH]; intros d h0 w h st' Hd Hb Hk H z Hz; inversion H; subst; [now apply Hb|]. inversion Hk as [|? ? K1 K2]; subst.
    match goal with X : dexec _ _ _ _ _ _ _ _ |- _ => rename X into He end. match goal with X : sharded _ = true |- _ => rename X into Hs end. destruct st1 as [x1 w1]. cbn [fst snd] in *. destruct x1 as [|hh]; [discriminate|].
    destruct (dexec_ok hash n W P Hn Hh (HPb b) Hv D HD false T op d _ w r _ Hd K1 He) as (_ & _ & Hd' & _). cbn [dcontents fold_left] in Hz. eapply IH; [exact Hd'| |exact K2|eassumption|exact Hz].
    intros z1 Hz1. destruct (dgood_size d _ Hd) as [z0 Hz0]. destruct (Hb z0 Hz0) as [B1 B2]. pose proof (hamt_step d h0 w T op r _ z0 z1 HT Hd K1 He Hz0 Hz1) as S. cbn [fst hstep] in S. destruct S as [(S & _)|(p & Hp & S1 & S2)]; [congruence|]. lia.
  Qed.
  Lemma stays_basic T cs d x w h st' z1 z : 0 < T -> dgood d (x, w) -> sharded x = false -> has_size d z1 -> z1 < T -> named_dops cs -> stays hash W T (x, w) cs h st' -> cs <> [] -> has_size (dcontents d h) z -> T <= z \/ z1 <= z.
  Proof.
    intros HT Hd Hs Hz1 L Hk H Hne Hz. destruct x as [bb|]; [|discriminate]. inversion H; subst; [congruence|]. inversion Hk as [|? ? K1 K2]; subst.
    match goal with X : dexec _ _ _ _ _ _ _ _ |- _ => rename X into He end. match goal with X : sharded _ = true |- _ => rename X into Hs1 end. destruct st1 as [x1 w1]. cbn [fst snd] in *. destruct x1 as [|hh]; [discriminate|].
    destruct (dexec_ok hash n W P Hn Hh (HPb b) Hv D HD false T op d _ w r _ Hd K1 He) as (_ & _ & Hd' & _). cbn [dcontents fold_left] in Hz. eapply stays_run; [exact HT|exact Hd'| |exact K2|eassumption|exact Hz].
    intros z2 Hz2. pose proof (basic_step d bb w T op r _ z1 z2 HT Hd K1 He Hz1 Hz2 L) as S. cbn [fst] in S. destruct S as (S1 & p & Hp & S2). lia.
  Qed.
End Shape.

Section Claims.
  Variables (hash : bytes -> bytes) (n : nat) (W : Z) (b : option prefix).
  Hypothesis Hn : (2 <= n)%nat.
  Hypothesis Hh : forall k, length (hash k) = n.
  Hypothesis Hv : valid_width W.

  Lemma new_size z : has_size dempty z -> z = 0.
  Proof using. intros H. eapply size_empty; [exact H|reflexivity]. Qed.
  Lemma new_basic d0 : NewDirectory b = Ok d0 -> sharded d0 = false.
  Proof using. unfold NewDirectory. destruct newEmptyBasicDirectory; cbn [rmap]; try discriminate. now intros [= <-]. Qed.
  Lemma new_below D T d0 w : FolderPBData = Ok D -> 0 < T -> NewDirectory b = Ok d0 -> dgood hash n W (eq (proto_prefix b)) D dempty (d0, w) /\ below T dempty (d0, w).
  Proof using. intros HD HT E. split; [apply (new_good hash n W b D HD d0 w E)|]. intros z Hz. apply new_size in Hz. subst z. pose proof (new_basic d0 E). cbn [fst]. destruct d0; [assumption|discriminate]. Qed.

  Lemma fixed_basic T d0 w cs h st z : 0 < T -> NewDirectory b = Ok d0 -> named_dops (map snd cs) -> Forall (fun c => fst c = T) cs -> drun hash W false (d0, w) cs h st ->
    has_size (dcontents dempty h) z -> sharded (fst st) = false -> z < T.
  Proof using Hn Hh Hv.
    intros HT E Hk HF H Hz Hs. destruct folder_data as [D HD]. destruct (new_below D T d0 w HD HT E) as [G1 G2]. destruct (below_run hash n W b Hn Hh Hv D HD T cs HT _ _ h st G1 G2 Hk HF H) as [_ B]. specialize (B z Hz). destruct (fst st); [assumption|discriminate].
  Qed.
  Lemma fixed_shape T d0 w cs h st z : 0 < T -> NewDirectory b = Ok d0 -> named_dops (map snd cs) -> Forall (fun c => fst c = T) cs -> drun hash W false (d0, w) cs h st ->
    keeps T dempty h -> has_size (dcontents dempty h) z -> sharded (fst st) = (T <=? z).
  Proof using Hn Hh Hv.
    intros HT E Hk HF H Hkp Hz. destruct folder_data as [D HD]. destruct (new_below D T d0 w HD HT E) as [G1 G2]. eapply (exact_run hash n W b Hn Hh Hv D HD T cs HT dempty (d0, w) h st G1 G2); try eassumption.
    cbn [fst]. rewrite (new_basic d0 E). discriminate.
  Qed.
  Lemma window T st1 d1 cs h st z1 z : 0 < T -> dreached hash W b st1 d1 -> sharded (fst st1) = false -> has_size d1 z1 -> z1 < T -> named_dops cs -> stays hash W T st1 cs h st -> cs <> [] ->
    has_size (dcontents d1 h) z -> T <= z \/ z1 <= z.
  Proof using Hn Hh Hv.
    intros HT R Hs Hz1 L Hk H Hne Hz. destruct folder_data as [D HD]. apply (reached_good hash n W b Hn Hh Hv D HD) in R. destruct st1 as [x w]. eapply (stays_basic hash n W b Hn Hh Hv D HD T cs d1 x w); eauto.
  Qed.
  Lemma window_loaded T0 T st0 st1 d1 cs h st z1 z : 0 < T -> dreached hash W b st0 d1 -> sharded (fst st0) = true -> dexec hash W false T0 DReload st0 (Ok VUnit) st1 -> has_size d1 z1 -> named_dops cs -> stays hash W T st1 cs h st ->
    has_size (dcontents d1 h) z -> T <= z \/ z1 <= z.
  Proof using Hn Hh Hv.
    intros HT R Hs Hr Hz1 Hk H Hz. destruct folder_data as [D HD]. apply (reached_good hash n W b Hn Hh Hv D HD) in R. destruct st0 as [x0 w0]. cbn [fst] in Hs.
    destruct (reload_fresh hash n W b Hh D d1 x0 w0 false T0 VUnit st1 R Hr Hs) as (h1 & E & Ec). destruct (dexec_ok hash n W (eq (proto_prefix b)) Hn Hh (HPb b) Hv D HD false T0 DReload d1 x0 w0 (Ok VUnit) st1 R ltac:(discriminate) Hr) as (_ & _ & G & _).
    cbn [deffect q_res q_op] in G. destruct st1 as [x1 w1]. cbn [fst] in E. subst x1. eapply (stays_run hash n W b Hn Hh Hv D HD T cs HT z1 d1 h1 w1 h st G); [|exact Hk|exact H|exact Hz].
    intros z2 Hz2. rewrite Ec. pose proof (size_unique _ _ _ Hz2 Hz1). lia.
  Qed.
End Claims.

Lemma fixed_root hash n W b T d1 w1 cs1 h1 st1 d2 w2 cs2 h2 st2 : (2 <= n)%nat -> (forall k, length (hash k) = n) -> valid_width W -> 0 < T ->
  NewDirectory b = Ok d1 -> named_dops (map snd cs1) -> Forall (fun c => fst c = T) cs1 -> drun hash W false (d1, w1) cs1 h1 st1 -> keeps T dempty h1 ->
  NewDirectory b = Ok d2 -> named_dops (map snd cs2) -> Forall (fun c => fst c = T) cs2 -> drun hash W false (d2, w2) cs2 h2 st2 -> keeps T dempty h2 ->
  deq (dcontents dempty h1) (dcontents dempty h2) ->
  sharded (fst st1) = sharded (fst st2) /\ forall n1 n2 s1 s2, dGetNode st1 = (Ok n1, s1) -> dGetNode st2 = (Ok n2, s2) -> seal n1 = seal n2.
Proof.
  intros Hn Hh Hv HT E1 K1 F1 R1 P1 E2 K2 F2 R2 P2 He.
  assert (Q1 : dreached hash W b st1 (dcontents dempty h1)) by (exists d1, w1, cs1, h1; auto). assert (Q2 : dreached hash W b st2 (dcontents dempty h2)) by (exists d2, w2, cs2, h2; auto).
  assert (Es : sharded (fst st1) = sharded (fst st2)).
  { destruct folder_data as [D HD]. destruct (dgood_size hash n W b Hh D _ _ (reached_good hash n W b Hn Hh Hv D HD _ _ Q1)) as [z Hz].
    rewrite (fixed_shape hash n W b Hn Hh Hv T d1 w1 cs1 h1 st1 z HT E1 K1 F1 R1 P1 Hz). symmetry. eapply fixed_shape; try eassumption. eapply has_size_deq; eauto. }
  split; [exact Es|]. intros n1 n2 s1 s2 N1 N2. eapply one_root with (st1 := st1) (st2 := st2); eauto.
Qed.
