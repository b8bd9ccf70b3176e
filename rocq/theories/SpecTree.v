(** Specification of the whole way of a tree of files: importing the files, building the
    directories around them, saving all, and finding everything again from the root. *)
From Verif Require Import Base Pb FSNode Dag Builder Balanced Trickle Importer SpecHamt Walk Directory SpecDir DirExec Reader ReaderRun SpecReader Resolve UnixFile.

(** A tree of files, symbolic links and directories. *)
Inductive tree :=
| TFile (content : bytes)
| TLink (target : bytes)
| TDir (kids : list (bytes * tree)).
Fixpoint assoc {A} (k : bytes) (l : list (bytes * A)) : option A :=
  match l with
  | [] => None
  | (k', x) :: r => if bytes_eqb k' k then Some x else assoc k r
  end.
(** The part of the tree at a path. *)
Fixpoint at_path (t : tree) (path : list bytes) : option tree :=
  match path with
  | [] => Some t
  | k :: r => match t with TDir kids => match assoc k kids with Some t' => at_path t' r | None => None end | _ => None end
  end.

(** What a client does to publish a tree. Files are imported in either layout, with any
    parameters and from any chunks. The entries of a directory are published first; then a
    new directory goes through any history of operations, with any threshold at each, that
    leaves these entries in it; its node is added. In between the client may add other
    nodes ([pub_more]). /repo/importer/importer.go:18-45, /repo/unixfs.go:348-361,
    /repo/io/directory.go:139-160, 332-334, 423-425 *)
Section Publish.
  Variables (hash : bytes -> bytes) (width : Z).
  Inductive publishes : tree -> world -> node -> world -> Prop :=
  | pub_balanced fuel dbp fi chunks w root w' : balanced_import fuel dbp fi (map EvData chunks) w = (Ok root, w') -> publishes (TFile (concat chunks)) w root w'
  | pub_trickle fuel dbp fi chunks w root w' : 1 <= pr_maxlinks dbp -> (length chunks < fuel)%nat ->
      trickle_import fuel dbp fi (map EvData chunks) w = (Ok root, w') -> publishes (TFile (concat chunks)) w root w'
  | pub_link target p b w w' : zlen target < two64 -> SymlinkData target = Ok b -> dserv_add (NProto p b []) None w = (Ok tt, w') -> publishes (TLink target) w (NProto p b []) w'
  | pub_dir kids nodes w w1 b d0 cs h x1 w2 x2 nd w3 w4 : publishes_all kids w nodes w1 ->
      NewDirectory b = Ok d0 -> named_dops (map snd cs) -> drun hash width false (d0, w1) cs h (x1, w2) ->
      (forall k, dcontents dempty h k = option_map node_entry (assoc k nodes)) ->
      dGetNode (x1, w2) = (Ok nd, (x2, w3)) -> dserv_add nd None w3 = (Ok tt, w4) -> publishes (TDir kids) w (seal nd) w4
  | pub_more t w nd w' w'' : publishes t w nd w' -> wext w' w'' -> publishes t w nd w''
  with publishes_all : list (bytes * tree) -> world -> list (bytes * node) -> world -> Prop :=
  | pub_nil w : publishes_all [] w [] w
  | pub_cons k t kids w nd w1 nodes w2 : publishes t w nd w1 -> publishes_all kids w1 nodes w2 -> publishes_all ((k, t) :: kids) w ((k, nd) :: nodes) w2.
End Publish.

(** What a client finds at a node: the bytes of the file under any reading and seeking, the
    target of the link, the names in the directory. /repo/file/unixfile.go:154-181 *)
Definition finds (w : world) (m : node) (t : tree) : Prop :=
  match t with
  | TFile content => zlen content < 9223372036854775808 -> forall ops, Forall op_ok ops ->
      exists r tr r' pos', NewUnixfsFile w m = Ok (FFile r) /\ fsize (FFile r) = zlen content /\
        reader_run (map (fun op => (w, op)) ops) r = Some (tr, r') /\ map fst tr = ops /\ file_run content 0 tr pos'
  | TLink target => NewUnixfsFile w m = Ok (FLink target)
  | TDir kids => exists x l st', NewUnixfsFile w m = Ok (FDir x (i64 (node_size m))) /\
      dEach (fun _ _ => None) (x, w) = ((Ok tt, l), st') /\ NoDup (map lname l) /\ (forall k, In k (map lname l) <-> In k (map fst kids))
  end.

(** Following a path from the root [nd]: what is there is found, and what is not there is
    reported as missing. *)
Definition outcome (hash : bytes -> bytes) (w : world) (nd : node) (path : list bytes) (o : option tree) : Prop :=
  match o with
  | Some t => exists m, resolve_all hash w (length path) nd path = Ok m /\ finds w m t
  | None => resolve_all hash w (length path) nd path = Err ENotExist \/ resolve_all hash w (length path) nd path = Err ELinkNotFound
  end.

(** Trees that can be published: the names in a directory are different and not empty. *)
Inductive well_named : tree -> Prop :=
| wn_file content : well_named (TFile content)
| wn_link target : zlen target < two64 -> well_named (TLink target)
| wn_dir kids : NoDup (map fst kids) -> Forall (fun k : bytes => k <> []) (map fst kids) -> Forall well_named (map snd kids) -> well_named (TDir kids).
