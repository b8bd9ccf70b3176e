(** Histories in which the CID builder is changed between the operations. *)
From Verif Require Import Base Pb FSNode Dag Builder HashBits Bitfield Hamt SpecHamt HamtExec Walk Directory SpecDir DirExec.

(** *** Sharded directories *)

(** An operation or SetCidBuilder. *)
Inductive bop := BOp (op : hop) | BBuilder (b : option prefix).
(** A history with the results of its operations; SetCidBuilder is
    /repo/hamt/hamt.go:177-179. *)
Fixpoint blrun (hash : bytes -> bytes) (ops : list bop) (sw : shard * world) : list hobs * (shard * world) :=
  match ops with
  | [] => ([], sw)
  | BBuilder b :: r => blrun hash r (SetCidBuilder b (fst sw), snd sw)
  | BOp op :: r =>
      let (v, sw1) := hexec hash op sw in
      let (os, sw2) := blrun hash r sw1 in
      (mkObs op (add_failedb (snd sw) (snd sw1)) v :: os, sw2)
  end.
Definition named_bops (ops : list bop) : Prop := Forall (fun o => match o with BOp op => hname op <> Some [] | BBuilder _ => True end) ops.
(** The builder set last, and all of them. *)
Definition blast (b : option prefix) (ops : list bop) : option prefix := fold_left (fun c o => match o with BBuilder b => b | BOp _ => c end) ops b.
Definition ball (ops : list bop) : list (option prefix) := flat_map (fun o => match o with BBuilder b => [b] | BOp _ => [] end) ops.

(** *** Dynamic directories *)

(** An operation with the threshold that is set at the time, or SetCidBuilder. *)
Inductive lop := LOp (T : Z) (op : dop) | LBuilder (b : option prefix).
(** A history with the results of its operations; SetCidBuilder is
    /repo/io/directory.go:207-209, 364-366. *)
Inductive lrun (hash : bytes -> bytes) (width : Z) (mayc : bool) : directory * world -> list lop -> list dobs -> directory * world -> Prop :=
| lr_nil st : lrun hash width mayc st [] [] st
| lr_op T op st r st1 cs h st2 : dexec hash width mayc T op st r st1 -> lrun hash width mayc st1 cs h st2 ->
    lrun hash width mayc st (LOp T op :: cs) (mkDobs op (snd st) (snd st1) r :: h) st2
| lr_builder b x w cs h st2 : lrun hash width mayc (dSetCidBuilder b x, w) cs h st2 -> lrun hash width mayc (x, w) (LBuilder b :: cs) h st2.
Definition named_lops (ops : list lop) : Prop := Forall (fun o => match o with LOp _ op => dname op <> Some [] | LBuilder _ => True end) ops.
(** The builder set last, and all of them. *)
Definition llast (b : option prefix) (ops : list lop) : option prefix := fold_left (fun c o => match o with LBuilder b => b | LOp _ _ => c end) ops b.
Definition lall (ops : list lop) : list (option prefix) := flat_map (fun o => match o with LBuilder b => [b] | LOp _ _ => [] end) ops.

(** *** The shards of a stored directory *)

(** [z] is the root or a sub-shard of the sharded directory with root [nd], when the slot
    prefixes have length [pad]: the link to a sub-shard has a name of just that length. *)
Inductive shard_of (pad : nat) (nd : node) : node -> Prop :=
| so_root : shard_of pad nd nd
| so_sub z l : shard_of pad nd z -> In l (node_links z) -> length (lname l) = pad -> shard_of pad nd (lto l).
