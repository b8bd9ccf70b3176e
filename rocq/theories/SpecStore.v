(** Specification of what ends up in the block store, and in which order. *)
From Verif Require Import Base Pb FSNode Dag SpecFile.

(** The blocks of a DAG, children before parents, from left to right; a block that occurs
    several times is listed several times. *)
Fixpoint blocks (n : node) : list node :=
  match n with
  | NRaw _ _ => [n]
  | NProto _ _ ls => flat_map (fun l => blocks (lto l)) ls ++ [n]
  end.

(** In the list [a] every block comes after its children, except for children in [B]. *)
Definition children_first (B : node -> Prop) (a : list (node * option Z)) : Prop :=
  forall a1 x a2, a = a1 ++ x :: a2 -> forall l, In l (node_links (fst x)) -> B (lto l) \/ In (lto l) (map fst a1).

(** A store in which every block has its children. *)
Definition closed (w : world) : Prop :=
  forall n, stored w n = true -> forall l, In l (node_links n) -> stored w (lto l) = true.
(** The store after further blocks have been added. *)
Definition with_blocks (w : world) (a : list (node * option Z)) : world :=
  mkWorld (w_has w) (w_added w ++ a) (w_calls w) (w_addok w) (w_getok w).
(** Blocks were only added to [w], and at every moment on the way to [w'] the store is closed. *)
Definition closed_throughout (w w' : world) : Prop :=
  w_has w' = w_has w /\ exists a, w_added w' = w_added w ++ a /\ forall a1 a2, a = a1 ++ a2 -> closed (with_blocks w a1).
(** The children of [n] are in the store. *)
Definition has_children (w : world) (n : node) : Prop := forall l, In l (node_links n) -> stored w (lto l) = true.
