(** Specification of what a client of a directory has to store itself. *)
From Verif Require Import Base Pb FSNode Dag SpecHamt SpecDir SpecStore.

(** Operations on a sharded directory: a node given to [Set] or [Swap] has its children in
    the store, and a link given to [SetLink] leads to a block in the store. *)
Definition given_shard (w : world) (op : hop) : Prop :=
  match op with HSet _ n | HSwap _ n => has_children w n | HSetLink _ l => stored w (lto l) = true | _ => True end.
(** Operations on a directory: a node given to [AddChild] is in the store; a node that the
    client stores has its children in the store. *)
Definition given_dir (w : world) (op : dop) : Prop :=
  match op with DAdd _ n => stored w (seal n) = true | DStore n => has_children w n | _ => True end.
