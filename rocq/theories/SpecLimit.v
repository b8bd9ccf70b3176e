(** The size of the blocks of a file: how many bytes of the file one block holds. *)
From Verif Require Import Base Pb FSNode Dag Builder SpecFile.

(** The data in a block, be it a leaf or not. *)
Inductive block_data : node -> bytes -> Prop :=
| bd_raw p d : block_data (NRaw p d) d
| bd_proto p b ls fs : FSNodeFromBytes b = Ok fs -> block_data (NProto p b ls) (getData fs).
(** No block of [n] holds more than [L] bytes. *)
Definition small (L : Z) (n : node) : Prop := forall m d, reach n m -> block_data m d -> zlen d <= L.
(** The blocks added to the store from [w] to [w'] do not, with all below them. *)
Definition adds_small (L : Z) (w w' : world) : Prop :=
  forall x, In x (w_added w') -> In x (w_added w) \/ small L (fst x).
(** Chunks that a leaf with at most [L] bytes can hold, or that no leaf can hold. *)
Definition fits (L : Z) (c : bytes) : Prop := zlen c <= L \/ 1048576 < zlen c.
