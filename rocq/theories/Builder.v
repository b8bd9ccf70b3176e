(** Model of /repo/importer/helpers (dagbuilder.go, helpers.go). *)
From Verif Require Import Base Pb FSNode Dag.

(** ** State and error monad: the state survives errors *)

Definition M (S A : Type) := S -> res A * S.
Definition ret {S A} (a : A) : M S A := fun s => (Ok a, s).
Definition throw {S A} (e : err) : M S A := fun s => (Err e, s).
Definition lift {S A} (r : res A) : M S A := fun s => (r, s).
Definition bind {S A B} (m : M S A) (f : A -> M S B) : M S B := fun s =>
  match m s with
  | (Ok a, s') => f a s'
  | (Err e, s') => (Err e, s')
  | (Panic, s') => (Panic, s')
  | (Fuel, s') => (Fuel, s')
  end.
Notation "'do' x '<-' m ';;' k" := (bind m (fun x => k))
  (at level 200, x pattern, m at level 100, k at level 200).

(** ** DagBuilderHelper *)

(** What the chunk source (go-ipfs-chunker [Splitter.NextBytes]) delivers; the end
    of the list is io.EOF. *)
Inductive event := EvData (b : bytes) | EvErr (e : err).

(** /repo/importer/helpers/dagbuilder.go:28-50 (the DAG service is part of the
    state; [db_fs] is [fullPath != ""]; path and stat are not modelled). *)
Record db := mkDb {
  db_spl : list event;
  db_next : option bytes;
  db_err : option err;
  db_raw : bool;
  db_maxlinks : Z;
  db_builder : option prefix;
  db_fs : bool;
  db_offset : Z;
  db_w : world
}.

(** Field updates of DagBuilderHelper. /repo/importer/helpers/dagbuilder.go:28-50 *)
Definition db_set_input spl nx er d :=
  mkDb spl nx er (db_raw d) (db_maxlinks d) (db_builder d) (db_fs d) (db_offset d) (db_w d).
Definition db_set_offset o d :=
  mkDb (db_spl d) (db_next d) (db_err d) (db_raw d) (db_maxlinks d) (db_builder d) (db_fs d) o (db_w d).
Definition db_set_w w d :=
  mkDb (db_spl d) (db_next d) (db_err d) (db_raw d) (db_maxlinks d) (db_builder d) (db_fs d) (db_offset d) w.

(** /repo/importer/helpers/dagbuilder.go:56-73 (without the DAG service). *)
Record params := mkParams { pr_maxlinks : Z; pr_raw : bool; pr_builder : option prefix; pr_nocopy : bool }.

(** /repo/importer/helpers/dagbuilder.go:77-95; [fileinfo]: the splitter's reader
    is a files.FileInfo with a non-empty path. *)
Definition New (dbp : params) (fileinfo : bool) (spl : list event) (w : world) : res db :=
  if pr_nocopy dbp && negb fileinfo then Err EMissingFsRef
  else Ok (mkDb spl None None (pr_raw dbp) (pr_maxlinks dbp) (pr_builder dbp) (pr_nocopy dbp && fileinfo) 0 w).

(** /repo/importer/helpers/dagbuilder.go:100-110 *)
Definition prepareNext (d : db) : db :=
  match db_next d, db_err d with
  | None, None =>
      match db_spl d with
      | [] => d
      | EvData b :: r => db_set_input r (Some b) None d
      | EvErr e :: r => db_set_input r None (Some e) d
      end
  | _, _ => d
  end.

(** /repo/importer/helpers/dagbuilder.go:113-121 *)
Definition Done : M db bool := fun d0 =>
  let d := prepareNext d0 in
  match db_err d with
  | Some _ => (Ok false, d)
  | None => (Ok (match db_next d with None => true | Some _ => false end), d)
  end.

(** /repo/importer/helpers/dagbuilder.go:126-134. [None] is a nil slice. *)
Definition Next : M db (option bytes) := fun d0 =>
  let d := prepareNext d0 in
  let x := db_next d in
  let d' := db_set_input (db_spl d) None (db_err d) d in
  match db_err d' with
  | Some e => (Err e, d')
  | None => (Ok x, d')
  end.

(** /repo/importer/helpers/helpers.go:10 *)
Definition BlockSizeLimit : Z := 1048576.

(** ** FSNodeOverDag *)

(** /repo/importer/helpers/dagbuilder.go:293-296: the ProtoNode (prefix, committed
    data, links) and the cached FSNode. *)
Record fsn := mkFsn { f_prefix : prefix; f_bytes : bytes; f_links : list link; f_file : FSNode }.

(** The ProtoNode inside. /repo/importer/helpers/dagbuilder.go:391-393 (GetDagNode) *)
Definition GetDagNode (n : fsn) : node := NProto (f_prefix n) (f_bytes n) (f_links n).

(** /repo/importer/helpers/dagbuilder.go:302-310 *)
Definition NewFSNodeOverDag (builder : option prefix) (t : Z) : fsn :=
  mkFsn (proto_prefix builder) [] [] (NewFSNode t).

(** /repo/importer/helpers/dagbuilder.go:320-330; the argument is a ProtoNode. *)
Definition NewFSNFromDag (p : prefix) (b : bytes) (ls : list link) : res fsn :=
  let? fs := FSNodeFromBytes b in Ok (mkFsn p b ls fs).

(** /repo/importer/helpers/dagbuilder.go:359-367 *)
Definition Commit (n : fsn) : res fsn :=
  let? b := GetBytes (f_file n) in Ok (mkFsn (f_prefix n) b (f_links n) (f_file n)).

(** /repo/importer/helpers/dagbuilder.go:370-372 *)
Definition fNumChildren (n : fsn) : Z := NumChildren (f_file n).
(** /repo/importer/helpers/dagbuilder.go:376-378 *)
Definition fFileSize (n : fsn) : Z := FileSize (f_file n).
(** /repo/importer/helpers/dagbuilder.go:383-385 *)
Definition SetFileData (b : option bytes) (n : fsn) : fsn :=
  mkFsn (f_prefix n) (f_bytes n) (f_links n) (SetData b (f_file n)).

(** A node about to be added, with its filestore offset if it is a FilestoreNode. *)
Definition xnode := (node * option Z)%type.

(** /repo/importer/helpers/dagbuilder.go:264-266 *)
Definition Add (x : xnode) : M db unit := fun d =>
  let (r, w) := dserv_add (fst x) (snd x) (db_w d) in (r, db_set_w w d).

(** /repo/importer/helpers/dagbuilder.go:337-346: the state is the node and the
    helper; the link and the block size are recorded before the Add call. *)
Definition AddChild (child : xnode) (fileSize : Z) : M (fsn * db) unit := fun s =>
  let (n, d) := s in
  let n' := mkFsn (f_prefix n) (f_bytes n) (f_links n ++ [make_link [] (fst child)])
              (AddBlockSize fileSize (f_file n)) in
  let (r, d') := Add child d in (r, (n', d')).

(** /repo/importer/helpers/dagbuilder.go:349-352 *)
Definition RemoveChild (i : Z) (n : fsn) : res fsn :=
  let? fs := RemoveBlockSize i (f_file n) in
  if zlen (f_links n) <=? i then Panic
  else Ok (mkFsn (f_prefix n) (f_bytes n) (ztake i (f_links n) ++ zdrop (i + 1) (f_links n)) fs).

(** /repo/importer/helpers/dagbuilder.go:396-408 *)
Definition GetChild (i : Z) (n : fsn) (w : world) : res fsn :=
  if i <? 0 then Panic else
  match nth_error (f_links n) (Z.to_nat i) with
  | None => Panic
  | Some l =>
      let? c := dserv_get w (lto l) in
      match c with
      | NProto p b ls => NewFSNFromDag p b ls
      | NRaw _ _ => Err ENotProtobuf
      end
  end.

(** /repo/importer/helpers/dagbuilder.go:149-178 *)
Definition NewLeafNode (data : option bytes) (t : Z) (d : db) : res node :=
  if BlockSizeLimit <? zlen (obytes data) then Err ESizeLimit
  else if db_raw d then Ok (NRaw (raw_prefix (db_builder d)) (obytes data))
  else let? n := Commit (SetFileData data (NewFSNodeOverDag (db_builder d) t)) in
       Ok (GetDagNode n).

(** /repo/importer/helpers/dagbuilder.go:237-261 *)
Definition ProcessFileStore (n : node) (dataSize : Z) : M db xnode := fun d =>
  match db_fs d, n with
  | true, NRaw _ _ => (Ok (n, Some (db_offset d)), db_set_offset (u64 (db_offset d + dataSize)) d)
  | _, _ => (Ok (n, None), d)
  end.

(** /repo/importer/helpers/dagbuilder.go:210-227 *)
Definition NewLeafDataNode (t : Z) : M db (xnode * Z) :=
  do data <- Next ;;
  do n <- (fun d => (NewLeafNode data t d, d)) ;;
  do x <- ProcessFileStore n (zlen (obytes data)) ;;
  ret (x, zlen (obytes data)).

(** Running a helper operation next to a node. *)
Definition on_db {A} (m : M db A) : M (fsn * db) A := fun s =>
  let (r, d) := m (snd s) in (r, (fst s, d)).
(** Committing the node in the state. /repo/importer/helpers/dagbuilder.go:359-367 *)
Definition commit : M (fsn * db) unit := fun s =>
  match Commit (fst s) with
  | Ok n => (Ok tt, (n, snd s))
  | Err e => (Err e, s) | Panic => (Panic, s) | Fuel => (Fuel, s)
  end.
(** Working on a new node; the node is dropped on failure, its ProtoNode and file
    size are returned on success (e.g. /repo/importer/trickle/trickledag.go:71,82-88,
    /repo/importer/balanced/builder.go:248,260-268). *)
Definition with_new (n : fsn) (m : M (fsn * db) unit) : M db (xnode * Z) := fun d =>
  match m (n, d) with
  | (Ok _, (n', d')) => (Ok ((GetDagNode n', None), fFileSize n'), d')
  | (Err e, (_, d')) => (Err e, d')
  | (Panic, (_, d')) => (Panic, d')
  | (Fuel, (_, d')) => (Fuel, d')
  end.

(** [for node.NumChildren() < maxlinks && !db.Done() { child := mk(); node.AddChild(child) }],
    the loop shared by FillNodeLayer (/repo/importer/helpers/dagbuilder.go:187-196) and
    fillNodeRec (/repo/importer/balanced/builder.go:237-258). *)
Fixpoint fill_loop (mk : M db (xnode * Z)) (fuel : nat) : M (fsn * db) unit := fun s =>
  if fNumChildren (fst s) <? db_maxlinks (snd s) then
    (do d <- on_db Done ;;
     if d : bool then ret tt
     else do c <- on_db mk ;;
          do _ <- AddChild (fst c) (snd c) ;;
          match fuel with O => lift Fuel | S f => fill_loop mk f end) s
  else (Ok tt, s).

(** Fuel for [fill_loop]: the number of free places. *)
Definition room (s : fsn * db) : nat := Z.to_nat (db_maxlinks (snd s) - fNumChildren (fst s)).

(** /repo/importer/helpers/dagbuilder.go:184-201 *)
Definition FillNodeLayer : M (fsn * db) unit := fun s =>
  (do _ <- fill_loop (NewLeafDataNode TRaw) (room s) ;; commit) s.
