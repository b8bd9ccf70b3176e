(** Specification: shard nodes of any origin. *)
From Verif Require Import Base Pb FSNode Dag HashBits SpecHash Hamt SpecHamt.

(** A call ended with a value or an error. *)
Definition sane {A} (r : res A) : Prop := match r with Ok _ | Err _ => True | Panic | Fuel => False end.

(** A node that is accepted as a shard of width [W] with bitmap [bm] and links [ls]. *)
Inductive is_shard (W : Z) (bm : bytes) (ls : list link) : node -> Prop :=
| Is_shard p d fsn : FSNodeFromBytes d = Ok fsn -> getType fsn = THAMTShard -> getHashType fsn = HashMurmur3 -> getFanout fsn = W -> valid_width W -> getData fsn = bm ->
    is_shard W bm ls (NProto p d ls).
(** Number of hexadecimal digits of a slot index. *)
Definition digits (W : Z) : nat := length (hexX (W - 1)).
(** The nodes that are read as shards: links without a name behind the index. *)
Inductive subshard : node -> node -> Prop :=
| Sub_here n : subshard n n
| Sub_link n W bm ls l m : is_shard W bm ls n -> In l ls -> length (lname l) = digits W -> subshard (lto l) m -> subshard n m.

(** No bitmap is longer than the width. *)
Definition bitmaps_fit (n : node) : Prop := forall m W bm ls, subshard n m -> is_shard W bm ls m -> 8 * zlen bm <= W.
(** Number of bits set. *)
Definition bits (bm : bytes) : Z := occupied_before bm (8 * zlen bm).
(** Moreover all shards have the same width, at least as many links as bits, and each link
    has an index in its name. *)
Definition regular (W : Z) (n : node) : Prop := forall m W' bm ls, subshard n m -> is_shard W' bm ls m ->
  W' = W /\ 8 * zlen bm <= W /\ bits bm <= zlen ls /\ Forall (fun l => (digits W <= length (lname l))%nat) ls.

(** Operations that only read. *)
Definition reads (op : hop) : Prop := match op with HFind _ | HEach => True | _ => False end.
(** Each shard node by itself: bitmap, number of links and names agree with the width. *)
Definition plain (n : node) : Prop := forall W bm ls, is_shard W bm ls n -> 8 * zlen bm <= W /\ bits bm = zlen ls /\ Forall (fun l => (digits W <= length (lname l))%nat) ls.
