(** Vocabulary for programs with several directories and the nodes they got from them. *)
From Verif Require Import Base Dag Hamt Directory DirObj.

Section Spec.
  Variables (hash : bytes -> bytes) (width : Z) (mayc : bool).

  (** States of programs that begin with no node and no directory. *)
  Definition oreach (st : obj) : Prop := exists w ops rs, orun hash width mayc (mkObj [] [] w) ops rs st.
  (** The value of the node [a]. *)
  Definition node_of (st : obj) (a : nat) : option node := nth_error (o_nodes st) a.
  (** GetNode of directory [i] would return the node [a], which the program has seen before
      or could have. *)
  Definition answers (st : obj) (i a : nat) : Prop := node_of st a <> None /\ exists st', oexec hash width mayc (OGet i) st (Ok (ORef a)) st'.
  (** The contents of directory [i]. *)
  Definition dir_of (st : obj) (i : nat) : option directory :=
    match nth_error (o_dirs st) i with Some d => dview (o_nodes st) d | None => None end.
End Spec.

(** The directory an operation modifies. *)
Definition modifies (op : oop) (i : nat) : Prop :=
  match op with OBuilder j _ | OAdd j _ _ _ | ORemove j _ _ => i = j | _ => False end.
(** The node an operation encodes. *)
Definition encodes (op : oop) (a : nat) : Prop :=
  match op with OEncode b | OAdd _ _ _ b => a = b | _ => False end.
(** The node the program itself changes. *)
Definition edits (op : oop) (a : nat) : Prop :=
  match op with OEdit b _ _ _ => a = b | _ => False end.

(** Programs that change no node a directory has, and load only nodes with distinct names. *)
Section Careful.
  Variables (hash : bytes -> bytes) (width : Z) (mayc : bool).
  Definition careful (st : obj) (op : oop) : Prop :=
    match op with
    | OEdit a _ _ _ => forall i, ~ answers hash width mayc st i a
    | OLoad a => forall n, node_of st a = Some n -> NoDup (map lname (node_links n))
    | _ => True
    end.
  Inductive creach : obj -> Prop :=
  | cr_start w : creach (mkObj [] [] w)
  | cr_step st op r st' : creach st -> careful st op -> oexec hash width mayc op st r st' -> creach st'.
End Careful.
(** The size of a directory as the threshold counts it: bytes of names and CIDs. *)
Definition entries_size (ls : list link) : Z := sumZ (map (fun l => Z.of_nat (length (lname l)) + cid_len (node_prefix (lto l))) ls).
