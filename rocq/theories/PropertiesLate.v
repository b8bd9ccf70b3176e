(** Theorems about changing the CID builder of a directory (C59, C78). *)
From Verif Require Import Base Pb Dag HashBits SpecHash Hamt SpecHamt HamtExec HamtWitness Walk WalkWitness Directory SpecDir DirExec DirWitness DirLate LateProofs LateWitness.

(** C78: SetCidBuilder may be called at any moments of the life of a directory, in either
    representation. The results of all operations, over all histories, thresholds, changes
    of the representation and reloads, are still those of a map ... *)
Theorem C78_contents : forall hash n W b0 x0 w0 ops h x w, (2 <= n)%nat -> (forall k, length (hash k) = n) -> valid_width W ->
  NewDirectory b0 = Ok x0 -> named_lops ops -> lrun hash W false (x0, w0) ops h (x, w) -> dconforms unreachable (crowded hash (usable n W)) dempty h.
Proof. intros hash n W b0 x0 w0 ops h x w Hn Hh Hv E N R. exact (proj1 (proj2 (dir_late hash n W b0 x0 w0 false ops h x w Hn Hh Hv E N R)) eq_refl). Qed.
Print Assumptions C78_contents.
(** ... no operation panics, whatever is cancelled, GetCidBuilder answers the builder set
    last, and the node of the directory is built with it. *)
Theorem C78_current : forall hash n W b0 x0 w0 mayc ops h x w, (2 <= n)%nat -> (forall k, length (hash k) = n) -> valid_width W ->
  NewDirectory b0 = Ok x0 -> named_lops ops -> lrun hash W mayc (x0, w0) ops h (x, w) ->
  Forall (fun o => q_res o <> Panic /\ q_res o <> Fuel) h /\ proto_prefix (dGetCidBuilder x) = proto_prefix (llast b0 ops) /\
  forall nd st1, dGetNode (x, w) = (Ok nd, st1) -> node_prefix nd = proto_prefix (llast b0 ops).
Proof. intros hash n W b0 x0 w0 mayc ops h x w Hn Hh Hv E N R. destruct (dir_late hash n W b0 x0 w0 mayc ops h x w Hn Hh Hv E N R) as (H1 & _ & H2 & H3 & _). exact (conj H1 (conj H2 H3)). Qed.
Print Assumptions C78_current.
(** The same for the shards of package hamt with all their operations. *)
Theorem C78_shard : forall hash n W b0 s0 w0 ops h s w, (2 <= n)%nat -> (forall k, length (hash k) = n) -> valid_width W ->
  new_dir W b0 = Ok s0 -> named_bops ops -> blrun hash ops (s0, w0) = (h, (s, w)) ->
  conforms hash (usable n W) (exists x, w_getok w0 x = false) dempty h /\ proto_prefix (s_builder s) = proto_prefix (blast b0 ops) /\
  forall nd w1, Node s w = (Ok nd, w1) -> node_prefix nd = proto_prefix (blast b0 ops).
Proof. intros hash n W b0 s0 w0 ops h s w Hn Hh Hv E N R. destruct (shard_late hash n W b0 s0 w0 ops h s w Hn Hh Hv E N R) as (H1 & H2 & H3). exact (conj H1 (conj H2 (fun nd w1 En => proj1 (H3 nd w1 En)))). Qed.
Print Assumptions C78_shard.
Example C78_shard_case : new_dir 256 None = Ok dir256 /\ named_bops blsample /\
  map o_res (fst (blrun hash8 blsample (dir256, good_store))) = [Ok VUnit; Ok VUnit; Ok (VEntry (lentry (lnk x01))); Ok VUnit; Ok (VOld (Some (lentry (lnk x02)))); Ok (VList [(na, lentry (lnk x01))])] /\
  blast None blsample = Some v1.
Proof. exact blsample_case. Qed.

(** C59: what remains true of it with sub-shards: every shard of a directory written by
    Node has been built with one of the builders the directory has had. *)
Theorem C59_among_partial : forall hash n W b0 x0 w0 mayc ops h s w nd w1 z, (2 <= n)%nat -> (forall k, length (hash k) = n) -> valid_width W ->
  NewDirectory b0 = Ok x0 -> named_lops ops -> lrun hash W mayc (x0, w0) ops h (DHamt s, w) -> Node (h_shard s) w = (Ok nd, w1) -> shard_of (length (hexX (W - 1))) nd z ->
  exists b, In b (b0 :: lall ops) /\ node_prefix z = proto_prefix b.
Proof. intros hash n W b0 x0 w0 mayc ops h s w nd w1 z Hn Hh Hv E N R En Hz. destruct (dir_late hash n W b0 x0 w0 mayc ops h (DHamt s) w Hn Hh Hv E N R) as (_ & _ & _ & _ & H). exact (H s nd w1 z eq_refl En Hz). Qed.
Print Assumptions C59_among_partial.
(** A history for these theorems: its root and its sub-shard have different builders. *)
Example C78_case : NewDirectory None = Ok dnew /\ named_lops lsample /\ lrun hash8 256 false (dnew, good_store) lsample (fst lres) (snd lres) /\ sharded (fst (snd lres)) = true /\
  map q_res (fst lres) = [Ok VUnit; Ok VUnit; Ok (VList [(na, node_entry ra); (nb, node_entry rb)]); Ok VUnit; Ok VUnit; Ok (VNode ra); Err ENotExist] /\
  (exists w1, Node (hshard (snd lres)) (snd (snd lres)) = (Ok lroot, w1)) /\ shard_of 2 lroot lsub /\ node_prefix lroot = proto_prefix None /\ node_prefix lsub = proto_prefix (Some v1) /\ proto_prefix (Some v1) <> proto_prefix None.
Proof. exact lsample_case. Qed.
