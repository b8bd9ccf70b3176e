(** Specification of what overwriting and truncating a file touch. *)
From Verif Require Import Base Pb FSNode Dag SpecFile SpecReader SpecLocal.

(** A block with bytes from [lo] up to [hi] has some of the [len] bytes from [off]; a write of
    nothing counts as one byte. *)
Definition overlaps (off len lo hi : Z) : Prop := lo < hi /\ lo < off + Z.max 1 len /\ off < hi.

(** The blocks that cutting the DAG [n] down to [s] bytes looks at: in every node that
    holds the first byte cut off, all children up to the one that holds it. *)
Inductive cut_needs : node -> Z -> node -> Prop :=
| cn_child n s pre l post bs : node_links n = pre ++ l :: post -> Forall2 tree_bytes (map lto pre) bs -> zlen (concat bs) <= s -> cut_needs n s (lto l)
| cn_below n s pre l post bs d m : node_links n = pre ++ l :: post -> Forall2 tree_bytes (map lto pre) bs -> tree_bytes (lto l) d ->
    zlen (concat bs) <= s < zlen (concat bs) + zlen d -> cut_needs (lto l) (s - zlen (concat bs)) m -> cut_needs n s m.

Definition if_overlaps (off len lo hi : Z) (P Q : Prop) : Prop := (overlaps off len lo hi -> P) /\ (~ overlaps off len lo hi -> Q).
