(** Specification of when two publications of trees of files get the same root. *)
From Verif Require Import Base Pb FSNode Dag Builder Balanced Trickle Importer SpecHamt Walk Directory SpecDir DirExec SpecTree.

(** Two trees with the same files, links and names; the order in which the entries of a
    directory are listed does not matter. *)
Inductive same_tree : tree -> tree -> Prop :=
| same_file content : same_tree (TFile content) (TFile content)
| same_link target : same_tree (TLink target) (TLink target)
| same_dir kids1 kids2 : (forall k, assoc k kids1 = None <-> assoc k kids2 = None) ->
    (forall k t1 t2, assoc k kids1 = Some t1 -> assoc k kids2 = Some t2 -> same_tree t1 t2) ->
    same_tree (TDir kids1) (TDir kids2).

(** What a client with fixed settings does to publish a tree: one layout ([trickle] or
    not), one set of parameters, one chunker [split], one form of links, one form of
    directories and one threshold, used as in [publishes]. The history of a directory is
    otherwise free, except that its size never falls from the threshold to below it; adding
    one entry after the other is such a history (C103_adding_keeps).
    /repo/importer/importer.go:18-45, /repo/unixfs.go:348-361,
    /repo/io/directory.go:139-160, 332-334, 423-425 *)
Section Ingest.
  Variables (hash : bytes -> bytes) (width : Z) (trickle : bool) (dbp : params) (split : bytes -> list bytes) (lp : prefix) (b : option prefix) (T : Z).
  Inductive ingests : tree -> world -> node -> world -> Prop :=
  | ing_balanced content fuel fi w root w' : trickle = false -> balanced_import fuel dbp fi (map EvData (split content)) w = (Ok root, w') -> ingests (TFile content) w root w'
  | ing_trickle content fuel fi w root w' : trickle = true -> 1 <= pr_maxlinks dbp -> (length (split content) < fuel)%nat ->
      trickle_import fuel dbp fi (map EvData (split content)) w = (Ok root, w') -> ingests (TFile content) w root w'
  | ing_link target data w w' : zlen target < two64 -> SymlinkData target = Ok data -> dserv_add (NProto lp data []) None w = (Ok tt, w') -> ingests (TLink target) w (NProto lp data []) w'
  | ing_dir kids nodes w w1 d0 cs h x1 w2 x2 nd w3 w4 : ingests_all kids w nodes w1 ->
      NewDirectory b = Ok d0 -> named_dops (map snd cs) -> Forall (fun c => fst c = T) cs -> drun hash width false (d0, w1) cs h (x1, w2) -> keeps T dempty h ->
      (forall k, dcontents dempty h k = option_map node_entry (assoc k nodes)) ->
      dGetNode (x1, w2) = (Ok nd, (x2, w3)) -> dserv_add nd None w3 = (Ok tt, w4) -> ingests (TDir kids) w (seal nd) w4
  | ing_more t w nd w' w'' : ingests t w nd w' -> wext w' w'' -> ingests t w nd w''
  with ingests_all : list (bytes * tree) -> world -> list (bytes * node) -> world -> Prop :=
  | ing_nil w : ingests_all [] w [] w
  | ing_cons k t kids w nd w1 nodes w2 : ingests t w nd w1 -> ingests_all kids w1 nodes w2 -> ingests_all ((k, t) :: kids) w ((k, nd) :: nodes) w2.
End Ingest.

(** The names that a history added, with repetitions. *)
Definition added_names (h : list dobs) : list bytes :=
  flat_map (fun o => match q_res o, q_op o with Ok _, DAdd k _ => [k] | _, _ => [] end) h.
Definition no_removal (h : list dobs) : Prop := Forall (fun o => match q_op o with DRemove _ => False | _ => True end) h.
