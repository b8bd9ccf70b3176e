(** No sharded directory contains two names whose hashes agree. *)
From Coq Require Import Lia.
From Verif Require Import Base Pb FSNode Dag DagProofs Builder HashBits Bitfield SpecHash HashProofs Hamt SpecHamt HamtExec HamtRep HamtNode HamtRun HamtFacts HamtAbs Walk WalkProofs WalkDir HamtNames
  Directory SpecDir DirExec DirBasic DirectoryProofs DirFacts DirShape HamtWitness DirWitness Murmur MurmurProofs.

Section Crowd.
  Variables (hash : bytes -> bytes) (n : nat) (W : Z).
  Hypothesis Hn : (2 <= n)%nat.
  Hypothesis Hh : forall k, length (hash k) = n.
  Hypothesis Hv : valid_width W.

  Lemma good_uncrowded P d s w : good hash n W P d s w -> ~ crowded hash (usable n W) d.
  Proof using Hn Hh.
    intros (lg & U & H1 & H2 & _ & kids & _ & Hw & Hd) (k & k' & Hne & E1 & E2 & Hc).
    destruct (lg_use n W Hn lg H1 H2) as [H3 H4]. rewrite H4 in Hc.
    assert (H5 : forall k, 8 * zlen (hash k) = 8 * Z.of_nat n) by (intros x; unfold zlen; now rewrite Hh).
    apply (agree_collide hash (8 * Z.of_nat n) lg H1 H5) in Hc; [|assumption].
    revert Hc. apply (wfk_disagree hash (8 * Z.of_nat n) lg H1 H5 0 kids k k' Hne Hw); now apply (holds_in d).
  Qed.
  Lemma sharded_uncrowded b s w d : reached hash W b s w d -> ~ crowded hash (usable n W) d.
  Proof using Hn Hh Hv. intros H. eapply good_uncrowded. eapply HamtNames.reached_good; eauto. Qed.
  Lemma crowded_basic b x w d : dreached hash W b (x, w) d -> crowded hash (usable n W) d -> sharded x = false.
  Proof using Hn Hh Hv.
    intros H Hc. destruct folder_data as [D HD]. destruct (DirectoryProofs.reached_good hash n W b Hn Hh Hv D HD _ _ H) as [_ G].
    destruct x as [bb|h]; [reflexivity|]. cbn [fst snd] in G. now apply good_uncrowded in G.
  Qed.
  Lemma crowded_small b T d0 w cs h st z : 0 < T -> NewDirectory b = Ok d0 -> named_dops (map snd cs) -> Forall (fun c => fst c = T) cs -> drun hash W false (d0, w) cs h st ->
    crowded hash (usable n W) (dcontents dempty h) -> has_size (dcontents dempty h) z -> z < T.
  Proof using Hn Hh Hv.
    intros HT E N F R Hc Hz. apply (fixed_basic hash n W b Hn Hh Hv T d0 w cs h st z); auto.
    destruct st as [x w']. cbn [fst]. apply (crowded_basic b x w' (dcontents dempty h)); [|assumption]. exists d0, w, cs, h. auto.
  Qed.
End Crowd.

(** ** The hash function of the package *)
Lemma room k k' W b s w d : k <> k' -> murmur3Hash k = murmur3Hash k' -> valid_width W -> reached murmur3Hash W b s w d -> d k = None \/ d k' = None.
Proof.
  intros Hne E Hv H. destruct (d k) eqn:E1; [|now left]. destruct (d k') eqn:E2; [|now right]. exfalso.
  assert (H8 : (2 <= 8)%nat) by lia.
  apply (sharded_uncrowded murmur3Hash 8 W H8 murmur_length Hv b s w d H). exists k, k'. split; [assumption|]. split; [congruence|]. split; [congruence|].
  unfold collide. now rewrite E.
Qed.
Lemma refused k k' W b s w d l : k <> k' -> murmur3Hash k = murmur3Hash k' -> k' <> [] -> valid_width W -> reached murmur3Hash W b s w d -> d k <> None -> (forall x, w_getok w x = true) ->
  fst (SetLink murmur3Hash w k' l s) = Err ETooDeep.
Proof.
  intros Hne E Hk Hv H Hd Hg. assert (H8 : (2 <= 8)%nat) by lia.
  pose proof (deep_iff' murmur3Hash 8 W b s w d k' l H8 murmur_length Hv H Hk Hg) as S. destruct (SetLink murmur3Hash w k' l s) as [r s']. cbn [fst].
  apply (proj1 S). split; [destruct (room k k' W b s w d Hne E Hv H); [contradiction|assumption]|]. exists k. split; [assumption|]. split; [assumption|]. unfold collide. now rewrite E.
Qed.
Lemma twin : forall k, (16 <= length k)%nat -> exists k', length k' = length k /\ k' <> k /\
  forall W b s w d, valid_width W -> reached murmur3Hash W b s w d ->
    (d k = None \/ d k' = None) /\
    (d k <> None -> (forall x, w_getok w x = true) -> forall l, fst (SetLink murmur3Hash w k' l s) = Err ETooDeep).
Proof.
  intros k Hk. destruct (same_hash k Hk) as (k' & Hl & Hne & E). exists k'. split; [assumption|]. split; [assumption|]. intros W b s w d Hv H. split.
  - apply (room k k' W b s w d); auto.
  - intros Hd Hg l. apply (refused k k' W b s w d l); auto. intros ->. cbn in Hl. lia.
Qed.
(** With the default width, different hashes are enough. *)
Lemma byte_value b : bits_value (byte_bits b) = b2z b.
Proof. now destruct b. Qed.
Lemma all_bits_inj a : forall b, all_bits a = all_bits b -> a = b.
Proof.
  assert (HB : forall x y, byte_bits x = byte_bits y -> x = y).
  { intros x y E. apply b2z_inj.  rewrite <- !byte_value. now rewrite E. }
  induction a as [|x a IH]; intros [|y b] E; [reflexivity| | |].
  - exfalso. apply (f_equal (@length bool)) in E. rewrite !all_bits_length in E. cbn in E. lia.
  - exfalso. apply (f_equal (@length bool)) in E. rewrite !all_bits_length in E. cbn in E. lia.
  - unfold all_bits in E. cbn [flat_map] in E. fold (all_bits a) (all_bits b) in E.
    assert (E1 : byte_bits x = byte_bits y). { apply (f_equal (firstn 8)) in E. rewrite !firstn_app, !byte_bits_length, Nat.sub_diag, !firstn_O, !app_nil_r, !firstn_all2 in E by (rewrite byte_bits_length; lia). exact E. }
    rewrite (HB _ _ E1) in *. apply app_inv_head in E. now rewrite (IH b E).
Qed.
Lemma apart k W b s w d l : W = 256 -> reached murmur3Hash W b s w d -> k <> [] -> (forall x, w_getok w x = true) -> (forall k', d k' <> None -> k' <> k -> murmur3Hash k' <> murmur3Hash k) ->
  fst (SetLink murmur3Hash w k l s) = Ok tt.
Proof.
  intros -> H Hk Hg Hd. assert (H8 : (2 <= 8)%nat) by lia.
  pose proof (deep_iff' murmur3Hash 8 256 b s w d k l H8 murmur_length width256 H Hk Hg) as S. destruct (SetLink murmur3Hash w k l s) as [r s']. cbn [fst].
  destruct S as [S1 S2]. assert (N : r <> Err ETooDeep).
  { intros E. apply S1 in E as [_ (k' & Hne & Hk' & Hc)]. apply (Hd k' Hk' Hne). apply all_bits_inj. unfold collide in Hc.
    change (Z.to_nat (usable 8 256)) with 64%nat in Hc. rewrite !firstn_all2 in Hc by (rewrite all_bits_length, murmur_length; lia). now symmetry. }
  destruct r as [[]|e| |]; [reflexivity| | |]; exfalso; apply N; now apply S2.
Qed.

(** Two ordinary names. *)
Definition report : bytes := [x61; x6e; x6e; x75; x61; x6c; x2d; x72; x65; x70; x6f; x72; x74; x2e; x6d; x64].
Definition other : bytes := [x63; x41; x30; x58; x58; x74; x68; x52; x48; x45; x62; x35; x6f; x36; x76; x52].
Lemma other_hash : report <> other /\ murmur3Hash report = murmur3Hash other.
Proof. split; [discriminate|vm_compute; reflexivity]. Qed.
(** With these two names a directory cannot reach the threshold. *)
Lemma stuck : forall W b T d0 w cs h st z, valid_width W -> 0 < T -> NewDirectory b = Ok d0 -> named_dops (map snd cs) -> Forall (fun c => fst c = T) cs ->
  drun murmur3Hash W false (d0, w) cs h st -> dcontents dempty h report <> None -> dcontents dempty h other <> None -> has_size (dcontents dempty h) z -> z < T.
Proof.
  intros W b T d0 w cs h st z Hv HT E N F R H1 H2 Hz. assert (H8 : (2 <= 8)%nat) by lia. destruct other_hash as [Hne Eh].
  apply (crowded_small murmur3Hash 8 W H8 murmur_length Hv b T d0 w cs h st z); auto. exists report, other. split; [assumption|]. split; [assumption|]. split; [assumption|]. unfold collide. now rewrite Eh.
Qed.

(** ** Concrete cases *)
Definition pair_ops : list (Z * dop) := [(130, DAdd report ra); (130, DAdd other rb)].
Definition pair_dir : list dobs * (directory * world) := match dfollow murmur3Hash 256 pair_ops (dnew, good_store) with Some x => x | None => ([], (dnew, good_store)) end.
Lemma pair_run : drun murmur3Hash 256 false (dnew, good_store) pair_ops (fst pair_dir) (snd pair_dir).
Proof. apply dfollow_ok. vm_compute. reflexivity. Qed.
(** Two entries are accepted, and no third one. *)
Lemma no_third : exists st, drun murmur3Hash 256 false (dnew, good_store) pair_ops (fst pair_dir) st /\ map q_res (fst pair_dir) = [Ok VUnit; Ok VUnit] /\
  forall r st', dAddChild murmur3Hash 256 false 130 na ra st r st' -> r = Err ETooDeep /\ st' = st.
Proof.
  exists (snd pair_dir). split; [exact pair_run|]. split; [vm_compute; reflexivity|]. intros r st' H.
  remember (snd pair_dir) as st eqn:E. vm_compute in E. subst st. cbn [dAddChild] in H.
  match type of H with (if ?x then _ else _) => replace x with true in H by (vm_compute; reflexivity) end.
  match type of H with match ?x with _ => _ end => replace x with (@Err hamtdir ETooDeep) in H by (vm_compute; reflexivity) end.
  exact H.
Qed.
Definition report_shard : shard := fst (snd (hrun murmur3Hash [HSet report (rawn x01)] (dir256, good_store))).
Definition report_world : world := snd (snd (hrun murmur3Hash [HSet report (rawn x01)] (dir256, good_store))).
Definition report_dir : dir := contents dempty (fst (hrun murmur3Hash [HSet report (rawn x01)] (dir256, good_store))).
Lemma report_case : valid_width 256 /\ reached murmur3Hash 256 None report_shard report_world report_dir /\ report_dir report <> None /\ (forall x, w_getok report_world x = true) /\ other <> [] /\ (16 <= length report)%nat.
Proof.
  split; [exact width256|]. split.
  - exists dir256, good_store, [HSet report (rawn x01)], (fst (hrun murmur3Hash [HSet report (rawn x01)] (dir256, good_store))).
    split; [vm_compute; reflexivity|]. split; [repeat constructor; discriminate|]. split; [|reflexivity]. unfold report_shard, report_world. now destruct (hrun _ _ _) as [h [s w]].
  - split; [vm_compute; discriminate|]. split; [reflexivity|]. split; [discriminate|]. cbn. lia.
Qed.
