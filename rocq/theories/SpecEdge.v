(** The right edge of a file: the blocks on the path to its last leaf. *)
From Verif Require Import Base Pb FSNode Dag SpecFile.

Inductive on_edge : node -> node -> Prop :=
| edge_self n : on_edge n n
| edge_last n ls l m : node_links n = ls ++ [l] -> on_edge (lto l) m -> on_edge n m.
