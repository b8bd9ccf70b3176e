(** C58, shards loaded from nodes of any origin: what is true. *)
From Verif Require Import Base Pb FSNode Dag HashBits Bitfield SpecHash Hamt SpecHamt HamtExec HamtWitness Walk SpecRobust RobustProofs RobustWitness.

(** Full statement: loading, reading, changing and writing a shard whose nodes come from
    anywhere never panics. It is false, see C58_bitmap_too_long_refuted and
    C58_bitmap_without_links_refuted in PropertiesHamt.v. Reading is safe as soon as no
    bitmap is longer than the width of its node, whatever the widths, the number of
    links, their names and targets. Missing: nodes with too long a bitmap. *)
Theorem C58_reading_partial : forall hash n ops w, bitmaps_fit n -> Forall reads ops ->
  sane (NewHamtFromDag n) /\ forall s h s' w', NewHamtFromDag n = Ok s -> hrun hash ops (s, w) = (h, (s', w')) ->
  Forall (fun o => sane (o_res o)) h /\ (forall cb acc, sane (fst (ForEachLink w' cb (s', acc)))) /\ forall mayc m t, wsteps w' mayc (walk_start m s') t -> ~ walk_crashed t.
Proof. exact reading_ok. Qed.
Print Assumptions C58_reading_partial.
Example C58_reading_case : bitmaps_fit mixed /\ exists s l s1 l2 s2, NewHamtFromDag mixed = Ok s /\ Find hash8 full_store long_name s = (Ok (Some l), s1) /\ lto l = rawn x02 /\ Find hash8 full_store short_name s1 = (Ok (Some l2), s2) /\ lto l2 = rawn x01.
Proof. exact (conj mixed_fit mixed_reads). Qed.

(** Changing and writing are safe too if all shards have one width, no node has more bits
    than links, and all names have room for an index; the nodes written are again such.
    Missing: mixed widths, for which it is false (below). *)
Theorem C58_writing_partial : forall hash k, (forall x, length (hash x) = k) -> forall W n ops w, regular W n -> named_ops ops ->
  sane (NewHamtFromDag n) /\ forall s h s' w', NewHamtFromDag n = Ok s -> hrun hash ops (s, w) = (h, (s', w')) ->
  Forall (fun o => sane (o_res o)) h /\ (forall m, In (Ok (VNode m)) (map o_res h) -> regular W m) /\
  (forall cb acc, sane (fst (ForEachLink w' cb (s', acc)))) /\ forall mayc m t, wsteps w' mayc (walk_start m s') t -> ~ walk_crashed t.
Proof. exact writing_ok. Qed.
Print Assumptions C58_writing_partial.
Example C58_writing_case : regular 8 odd /\ exists s h s' w', NewHamtFromDag odd = Ok s /\ named_ops odd_ops /\ hrun hash8 odd_ops (s, full_store) = (h, (s', w')) /\
  map (fun o => rmap (fun _ => tt) (o_res o)) h = [Err ENotExist; Ok tt; Err ENotProtobuf; Err ENotExist; Ok tt; Ok tt; Ok tt].
Proof. exact (conj odd_regular odd_run). Qed.

(** Everything that a directory made with this package writes is such a node. *)
Theorem C58_own_nodes_partial : forall hash k, (forall x, length (hash x) = k) -> forall W b s w d n w', valid_width W -> reached hash W b s w d -> Node s w = (Ok n, w') -> regular W n.
Proof. exact own_regular. Qed.
Print Assumptions C58_own_nodes_partial.
Example C58_own_case : exists s w d n w', reached hash8 256 None s w d /\ d nb <> None /\ Node s w = (Ok n, w').
Proof. exact own_case. Qed.

(** False when widths are mixed, although each node by itself is fine and every block can
    be fetched: after a removal, which moves the last entry of the narrow shard into the
    wide one, Node panics. *)
Theorem C58_mixed_width_refuted : exists n w k s s', (forall m, subshard n m -> plain m) /\ (forall m, stored w m = true) /\ k <> [] /\ NewHamtFromDag n = Ok s /\ Remove hash8 w k s = (Ok tt, s') /\ fst (Node s' w) = Panic.
Proof. exact mixed_panics. Qed.
Print Assumptions C58_mixed_width_refuted.
