(** Blocks that saved versions of a sharded directory have in common. *)
From Verif Require Import Base Dag Hamt SpecHamt SpecPath.

(** The block that an operation is given to store. *)
Definition given (op : hop) : option node :=
  match op with HSet _ n | HSwap _ n => Some (seal n) | _ => None end.

(** [m] is a shard on the path of a name of [K] in the directory saved as [nd]. *)
Definition on_paths (hash : bytes -> bytes) (W : Z) (K : bytes -> Prop) (nd m : node) : Prop :=
  exists k, K k /\ on_path hash W k 0 nd m.

(** The names of some operations. *)
Definition names_of (ops : list hop) (k : bytes) : Prop := exists op, In op ops /\ hname op = Some k.
