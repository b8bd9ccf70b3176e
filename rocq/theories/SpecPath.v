(** Specification of the blocks on the path of a name in a saved sharded directory. *)
From Verif Require Import Base Dag SpecHash SpecHamt.

(** Value of an upper case hexadecimal digit, and of a string of them. *)
Definition digit_value (b : byte) : option Z :=
  let z := b2z b in
  if (48 <=? z) && (z <=? 57) then Some (z - 48) else if (65 <=? z) && (z <=? 70) then Some (z - 55) else None.
Fixpoint hex_value (acc : Z) (s : bytes) : option Z :=
  match s with
  | [] => Some acc
  | b :: r => match digit_value b with Some v => hex_value (16 * acc + v) r | None => None end
  end.
(** Digits in the slot names of a directory of width [W], at most 1024. *)
Definition slot_digits (W : Z) : nat := if W <=? 16 then 1%nat else if W <=? 256 then 2%nat else 3%nat.
(** The link of the sub-shard in slot [i]: its name is the slot number. *)
Definition slot_link (W : Z) (l : link) (i : Z) : Prop := length (lname l) = slot_digits W /\ hex_value 0 (lname l) = Some i.

Section Path.
  Variables (hash : bytes -> bytes) (W : Z) (k : bytes).
  (** [on_path c nd m]: the shard [m] is met below the shard [nd] when following the
      hash of [k] from bit [c] on. *)
  Inductive on_path : Z -> node -> node -> Prop :=
  | path_here c nd l : In l (node_links nd) -> slot_link W l (bits_at (hash k) c (Z.log2 W)) -> on_path c nd (lto l)
  | path_down c nd l m : In l (node_links nd) -> slot_link W l (bits_at (hash k) c (Z.log2 W)) -> on_path (c + Z.log2 W) (lto l) m -> on_path c nd m.
End Path.

(** A history all of whose results are allowed; [missing op] says when [op] may fail
    because a block cannot be fetched. *)
Fixpoint conforms_by (hash : bytes -> bytes) (usable : Z) (missing : hop -> Prop) (d : dir) (h : list hobs) : Prop :=
  match h with [] => True | o :: r => allowed hash usable (missing (o_op o)) d o /\ conforms_by hash usable missing (effect d o) r end.

(** Some block that [op] needs cannot be fetched: one on the path of its name, or, if it
    has no name, one on the path of some name. *)
Definition needed_missing (hash : bytes -> bytes) (W : Z) (nd : node) (w : world) (op : hop) : Prop :=
  exists k m, match hname op with Some k' => k = k' | None => True end /\ on_path hash W k 0 nd m /\ w_getok w m = false.

(** The same service with other faults when fetching. *)
Definition with_faults (g : node -> bool) (w : world) : world := mkWorld (w_has w) (w_added w) (w_calls w) (w_addok w) g.
