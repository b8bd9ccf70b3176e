(** Names of the links that Find returns, and changing the CID builder. *)
From Verif Require Import Base Pb PbProofs FSNode FSNodeProofs Dag DagProofs Builder HashBits Bitfield SpecHash HashProofs Hamt SpecHamt HamtExec HamtRep HamtNode HamtRun HamtFacts HamtWitness Walk WalkProofs WalkDir HamtAbs.

Lemma reached_good hash n W b s w d : (2 <= n)%nat -> (forall k, length (hash k) = n) -> valid_width W -> reached hash W b s w d -> good hash n W (eq (proto_prefix b)) d s w.
Proof.
  intros Hn Hh Hv HR. destruct (setup hash n W b Hn Hh Hv) as (lg & H1 & H2 & H3 & H4 & H5 & H6). destruct (reached_inv hash n W b lg s w d H1 H2 H3 H4 H5 HR) as [U HI]. exists lg, U. auto.
Qed.

(** The name of the link is that of the entry, with or without a slot prefix. *)
Lemma find_names hash n W b s w d k l s' : (2 <= n)%nat -> (forall k, length (hash k) = n) -> valid_width W -> reached hash W b s w d -> k <> [] -> Find hash w k s = (Ok (Some l), s') ->
  d k = Some (lsize l, lto l) /\ exists p, lname l = p ++ k /\ (p = [] \/ length p = length (hexX (W - 1))).
Proof.
  intros Hn Hh Hv HR Hk E. pose proof (good_find_named hash n W _ Hn Hh (fun p (E : proto_prefix b = p) => eq_ind _ (fun p => p = proto_prefix (Some p)) (eq_sym (proto_prefix_idem b)) p E) d s w k (reached_good hash n W b s w d Hn Hh Hv HR) Hk) as S. rewrite E in S. destruct S as (_ & S1 & p & S2 & S3).
  split; [exact S1|]. exists p. auto.
Qed.
(** Which it is depends on whether ForEachLink has been called. *)
Definition each_done : shard := fst (snd (ForEachLink good_store (fun _ _ => None) (one_name, []))).
Lemma find_name_changes : exists s w d s1 acc l l' s2 s3, reached hash8 256 None s w d /\ ForEachLink w (fun _ _ => None) (s, []) = (Ok tt, (s1, acc)) /\
  Find hash8 w na s = (Ok (Some l), s2) /\ Find hash8 w na s1 = (Ok (Some l'), s3) /\ lname l <> na /\ lname l' = na.
Proof.
  exists one_name, good_store, (contents dempty (fst (hrun hash8 [HSetLink na (lnk x01)] (dir256, good_store)))), each_done. do 5 eexists. split; [|split; [vm_compute; reflexivity|split; [vm_compute; reflexivity|split; [vm_compute; reflexivity|split; [vm_compute; discriminate|reflexivity]]]]].
  exists dir256, good_store, [HSetLink na (lnk x01)], (fst (hrun hash8 [HSetLink na (lnk x01)] (dir256, good_store))). split; [vm_compute; reflexivity|]. split; [repeat constructor; discriminate|]. split; [vm_compute; reflexivity|reflexivity].
Qed.

(** No two names in the same slot of the root. *)
Definition apart (hash : bytes -> bytes) (W : Z) (d : dir) : Prop :=
  forall k k', d k <> None -> d k' <> None -> bits_at (hash k) 0 (Z.log2 W) = bits_at (hash k') 0 (Z.log2 W) -> k = k'.
Lemma good_set_builder hash n W P b d s w : (forall k, length (hash k) = n) -> valid_width W -> good hash n W P d s w -> apart hash W d -> good hash n W (eq (proto_prefix b)) d (SetCidBuilder b s) w.
Proof.
  intros Hh Hv (lg & U & H1 & H2 & HU & kids & Hr & Hw & Hd) Ha. assert (Elg : Z.log2 W = lg) by (destruct (proj1 (valid_lg W) Hv) as (lg' & _ & E & <-); congruence).
  exists lg, U. split; [assumption|]. split; [assumption|]. split; [exact HU|]. exists kids. split; [|auto]. cbn [fst snd] in *.
  assert (Hleaf : Forall (fun x => exists k v, snd x = Leaf k v) kids).
  { pose proof Hw as (_ & _ & HF). rewrite Forall_forall in *. intros [i t] Hx. destruct (HF _ Hx) as [F1 F2]. cbn [snd fst] in *. destruct t as [k v|kk]; [eauto|]. exfalso.
    pose proof (wf_nodup hash (8 * Z.of_nat n) lg W H1 H2 (fun k => f_equal (fun x => 8 * Z.of_nat x) (Hh k)) _ _ F2) as N. apply (wf_branch hash _ lg H1) in F2 as [F2 _]. unfold keys in *. cbn [entries] in *. fold (entriesk kk) in *.
    destruct (entriesk kk) as [|[k1 v1] [|[k2 v2] r]] eqn:Ee; cbn in F2; try lia. cbn [map fst] in *.
    assert (In1 : forall k v, In (k, v) (entriesk kk) -> d k <> None).
    { intros k v Hi. assert (X : In (k, v) (entriesk kids)) by (unfold entriesk; apply in_flat_map; exists (i, Branch kk); auto). apply Hd in X. congruence. }
    rewrite Ee in In1. assert (k1 = k2); [|inversion N; subst; cbn in *; tauto]. apply Ha; [apply (In1 k1 v1); now left|apply (In1 k2 v2); right; now left|]. rewrite Elg.
    change (slot_of hash lg k1 0 = slot_of hash lg k2 0). rewrite (F1 k1), (F1 k2); [reflexivity|right; now left|now left]. }
  destruct Hr as (R1 & R2 & R3 & R4 & R5). destruct s as [z b0 bf ky v sl]. cbn [SetCidBuilder s_key s_val s_size s_builder s_bf s_slots] in *.
  split; [assumption|]. split; [assumption|]. split; [reflexivity|]. split; [assumption|]. cbn [s_slots]. clear - R5 Hleaf. induction R5 as [|[i t] x ks sl H R5 IH]; [constructor|]. inversion Hleaf as [|? ? (kx & vx & E) HL]; subst. constructor; [|now apply IH].
  cbn [snd] in *. subst t. exact H.
Qed.
Lemma builder_flat hash n W b b' s w d s2 w2 d2 n1 n2 w1' w2' : (2 <= n)%nat -> (forall k, length (hash k) = n) -> valid_width W -> reached hash W b s w d -> reached hash W b' s2 w2 d2 -> deq d d2 -> apart hash W d ->
  Node (SetCidBuilder b' s) w = (Ok n1, w1') -> Node s2 w2 = (Ok n2, w2') -> n1 = n2.
Proof.
  intros Hn Hh Hv R1 R2 E Ha N1 N2. pose proof (good_set_builder hash n W _ b' d s w Hh Hv (reached_good hash n W b s w d Hn Hh Hv R1) Ha) as G1.
  pose proof (good_deq hash n W _ d2 d s2 w2 (reached_good hash n W b' s2 w2 d2 Hn Hh Hv R2) (fun k => eq_sym (E k))) as G2.
  eapply (good_node_eq hash n W (eq (proto_prefix b'))); [exact Hh|congruence|exact G1|exact G2|exact N1|exact N2].
Qed.
Definition flat_ops : list hop := [HSetLink na (lnk x01); HSetLink [x62] (lnk x02)].
Definition flat (b : option prefix) : list hobs * (shard * world) := hrun hash8 flat_ops (SetCidBuilder b dir256, good_store).
Lemma flat_reached b : reached hash8 256 b (fst (snd (flat b))) (snd (snd (flat b))) (contents dempty (fst (flat b))).
Proof.
  exists (SetCidBuilder b dir256), good_store, flat_ops, (fst (flat b)). split; [vm_compute; reflexivity|]. split; [repeat constructor; discriminate|]. split; [|reflexivity]. fold (flat b). now destruct (flat b) as [h [s w]].
Qed.
Lemma flat_case : exists s w d s2 w2 d2 n1 n2 w1' w2', reached hash8 256 None s w d /\ reached hash8 256 (Some v1) s2 w2 d2 /\ deq d d2 /\ apart hash8 256 d /\ d na <> None /\ d [x62] <> None /\
  Node (SetCidBuilder (Some v1) s) w = (Ok n1, w1') /\ Node s2 w2 = (Ok n2, w2') /\ node_eqb n1 n2 = true.
Proof.
  do 6 eexists. exists (root_of (SetCidBuilder (Some v1) (fst (snd (flat None))))), (root_of (fst (snd (flat (Some v1))))). do 2 eexists. split; [exact (flat_reached None)|]. split; [exact (flat_reached (Some v1))|].
  replace (fst (flat None)) with (fst (flat (Some v1))) by (vm_compute; reflexivity). split; [intros k; reflexivity|]. split; [|split; [vm_compute; discriminate|split; [vm_compute; discriminate|split; [vm_compute; reflexivity|split; [vm_compute; reflexivity|vm_compute; reflexivity]]]]].
  replace (fst (flat (Some v1))) with [mkObs (HSetLink na (lnk x01)) false (Ok VUnit); mkObs (HSetLink [x62] (lnk x02)) false (Ok VUnit)] by (vm_compute; reflexivity).
  intros k k' H H'. unfold contents in *. cbn [fold_left effect o_res o_op lsize lto] in *. unfold dput, dempty in *.
  destruct (bytes_eqb k [x62]) eqn:E1; destruct (bytes_eqb k' [x62]) eqn:E2; try (apply bytes_eqb_eq in E1; subst k); try (apply bytes_eqb_eq in E2; subst k'); try reflexivity.
  - destruct (bytes_eqb k' na) eqn:E3; [|congruence]. apply bytes_eqb_eq in E3. subst k'. vm_compute. discriminate.
  - destruct (bytes_eqb k na) eqn:E3; [|congruence]. apply bytes_eqb_eq in E3. subst k. vm_compute. discriminate.
  - destruct (bytes_eqb k na) eqn:E3; [|congruence]. destruct (bytes_eqb k' na) eqn:E4; [|congruence]. apply bytes_eqb_eq in E3, E4. congruence.
Qed.
