(** What a file keeps apart from its bytes: the CID prefix of its root, whether the root is
    a raw block, and otherwise the type of the UnixFS node, its hash type and fanout, and
    the fields this version does not know (as mode and modification time). *)
From Verif Require Import Base Pb FSNode Dag SpecModifier.

Definition attributes : Type := (option Z * option Z * option Z * bytes)%type.
Definition attrs (f : FSNode) : attributes := (d_type f, d_hashtype f, d_fanout f, d_unrec f).
(** [None] for a raw block; an error if the data of the node does not decode. *)
Definition kind (n : node) : prefix * option (res attributes) :=
  match n with
  | NRaw p _ => (p, None)
  | NProto p b _ => (p, Some (rmap attrs (FSNodeFromBytes b)))
  end.
(** A plain block of type Raw. *)
Definition plain_block : attributes := (Some TRaw, None, None, []).
(** Calls of Truncate. *)
Definition truncates (o : mop) : bool := match o with MTruncate _ => true | _ => false end.
