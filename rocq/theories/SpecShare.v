(** Sharing of blocks: files with common data have common blocks. *)
From Verif Require Import Base Pb FSNode Dag Builder Balanced Trickle Importer SpecFile.

(** The leaves of a file from left to right. *)
Fixpoint leaves (n : node) : list node :=
  match n with
  | NProto _ _ (l :: ls) => leaves (lto l) ++ flat_map (fun l => leaves (lto l)) ls
  | _ => [n]
  end.

(** [root] is the result of importing [chunks] with the trickle layout or the balanced
    one, into whatever store.
    /repo/importer/balanced/builder.go:125-180, /repo/importer/trickle/trickledag.go:36-43 *)
Definition imported (trickle : bool) (dbp : params) (chunks : list bytes) (root : node) : Prop :=
  chunks <> [] /\ (forall c, In c chunks -> c <> []) /\
  exists fuel fi w w',
    if trickle then 1 <= pr_maxlinks dbp /\ (length chunks < fuel)%nat /\ trickle_import fuel dbp fi (map EvData chunks) w = (Ok root, w')
    else balanced_import fuel dbp fi (map EvData chunks) w = (Ok root, w').
