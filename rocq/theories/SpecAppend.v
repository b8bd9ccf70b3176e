(** Specification of appending to a file, independent of the trickle package. *)
From Verif Require Import Base Pb FSNode Dag SpecFile SpecStore.

(** [appendable k n]: [n] is a file node whose data is in its links only, and as
    long as a node on its rightmost path has more than [k] links the last one leads
    to such a node again (the others are data leaves). *)
Inductive appendable (k : Z) : node -> Prop :=
| ap_empty p b fs : FSNodeFromBytes b = Ok fs -> getData fs = [] -> appendable k (NProto p b [])
| ap_links p b ls l : (k < zlen (ls ++ [l]) -> appendable k (lto l)) -> appendable k (NProto p b (ls ++ [l])).

(** Number of links on the longest path down. *)
Fixpoint height (n : node) : nat :=
  match n with
  | NRaw _ _ => O
  | NProto _ _ ls => S (fold_right (fun l h => Nat.max (height (lto l)) h) O ls)
  end.

(** The store serves every block it has. *)
Definition serves (w : world) : Prop := forall m, w_getok w m = true.
(** Nothing the chunk source or the store does makes the operation fail. *)
Definition can_add (w : world) : Prop := forall i, w_addok w i = true.

(** Every block of [n'] below the root is a block of [n] below its root, or one of [added]. *)
Definition blocks_from (n n' : node) (added : list (node * option Z)) : Prop :=
  forall l' m, In l' (node_links n') -> reach (lto l') m ->
    (exists l, In l (node_links n) /\ reach (lto l) m) \/ In m (map fst added).

(** The pieces of data that are not empty. *)
Definition solid (cs : list bytes) : list bytes := filter (fun c => match c with [] => false | _ => true end) cs.

(** ** Shape after appending *)

Section Loose.
  Variables (k r : Z) (leaf inner : node -> Prop).

  (** As [trickle], except that a sub-graph may be one level deeper than its layer. *)
  Inductive loose : Z -> node -> Prop :=
  | loose_node D n :
      inner n ->
      (forall i l, nth_error (node_links n) i = Some l -> Z.of_nat i < k -> leaf (lto l)) ->
      (forall i l, nth_error (node_links n) i = Some l -> k <= Z.of_nat i -> D = -1 \/ layer k r i < D) ->
      (forall i l, nth_error (node_links n) i = Some l -> k <= Z.of_nat i -> loose (layer k r i + 1) (lto l)) ->
      loose D n.
End Loose.

(** A file with [k] direct leaves and then sub-graphs, [r] in each layer, where a
    sub-graph may be one level deeper than its layer. *)
Definition loose_file (k r : Z) (raw : bool) (e : option prefix) : Z -> node -> Prop :=
  loose k r (trickle_leaf raw (prefix_expected e (if raw then RawCodec else DagProtobuf)))
    (trickle_inner (prefix_expected e DagProtobuf)).

(** ** What appending touches *)

(** The blocks an append has to fetch: below a node with more than [k] links the last
    child, and so on from there. *)
Inductive edge (k : Z) : list link -> node -> Prop :=
| ed_last ls l : k < zlen (ls ++ [l]) -> edge k (ls ++ [l]) (lto l)
| ed_below ls l m : k < zlen (ls ++ [l]) -> edge k (node_links (lto l)) m -> edge k (ls ++ [l]) m.

(** How the links of a node may change, and which blocks are written for it, in this order:
    links are added at the end, or the child behind the last of more than [k] links is
    replaced by one that has changed in this way, and links are added behind it. For new
    links all their blocks are written. *)
Inductive grew (k : Z) : list link -> list link -> list node -> Prop :=
| gw_more ls more : grew k ls (ls ++ more) (flat_map (fun l => blocks (lto l)) more)
| gw_edge ls l l' more a : k < zlen (ls ++ [l]) -> grew k (node_links (lto l)) (node_links (lto l')) a ->
    grew k (ls ++ [l]) (ls ++ l' :: more) (a ++ lto l' :: flat_map (fun l => blocks (lto l)) more).
