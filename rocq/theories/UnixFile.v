(** Model of /repo/file/unixfile.go: nodes as files.Node, and the iterator over a
    directory with the goroutine that feeds it. *)
From Verif Require Import Base Pb FSNode Dag Builder HashBits Bitfield Hamt HamtExec Walk Directory Reader.

(** A files.Node: a directory with its size, a symbolic link, or a file.
    /repo/file/unixfile.go:19-24, 125-127, 165 *)
Inductive fnode :=
| FDir (d : directory) (size : Z)
| FLink (target : bytes)
| FFile (r : reader).

(** /repo/file/unixfile.go:133-151; [nd.Size()] is the cumulative size. *)
Definition newUnixfsDir (nd : node) : res fnode := rmap (fun d => FDir d (i64 (node_size nd))) (NewDirectoryFromNode nd).
(** /repo/file/unixfile.go:154-181; other implementations of ipld.Node are not modelled. *)
Definition NewUnixfsFile (w : world) (nd : node) : res fnode :=
  match nd with
  | NProto _ d _ =>
      let? fsn := FSNodeFromBytes d in
      if IsDir fsn then newUnixfsDir nd
      else if getType fsn =? TSymlink then Ok (FLink (getData fsn))
      else rmap FFile (NewDagReader w nd)
  | NRaw _ _ => rmap FFile (NewDagReader w nd)
  end.
(** Size. /repo/file/unixfile.go:121-123, 129-131; go-ipfs-files [Symlink.Size]. *)
Definition fsize (f : fnode) : Z :=
  match f with FDir _ s => s | FLink t => zlen t | FFile r => i64 (Size r) end.

(** ** The iterator *)

(** The goroutine: links it still has to send and what ForEachLink returns after them;
    then closing errCh, closing fileCh. /repo/file/unixfile.go:96-111 *)
Inductive producer :=
| PSend (todo : list link) (result : res unit)
| PCloseErr
| PCloseFiles
| PDone.

(** What a call of Next has left to be seen: the result, Name(), Node() and Err().
    /repo/file/unixfile.go:38-87 *)
Record nextobs := mkNext { n_res : res bool; n_name : bytes; n_file : option fnode; n_err : option err }.

(** Goroutine, channels (buffer, closed) and ufsIterator ([i_files], [i_errch]: the field
    is not nil; [i_in]: inside the loop of Next). [i_obs]: the calls of Next so far.
    /repo/file/unixfile.go:26-36, 93-119 *)
Record iter := mkIter {
  i_prod : producer;
  i_buf : list link; i_closed : bool;
  i_ebuf : option (option err); i_eclosed : bool;
  i_files : bool; i_errch : bool; i_err : option err;
  i_name : bytes; i_file : option fnode;
  i_in : bool;
  i_obs : list nextobs }.

(** The links that the callback of Entries lets pass and the result of ForEachLink. With
    [cancel = Some i] the callback sees the cancelled context at link number [i] (lines 98-104).
    /repo/file/unixfile.go:97-107 *)
Definition production (cancel : option nat) (st : directory * world) : list link * res unit :=
  match dEach (fun acc _ => match cancel with Some i => if (length acc =? i)%nat then Some EOther else None | None => None end) st with
  | ((r, acc), _) => (match cancel with Some i => firstn i (rev acc) | None => rev acc end, r)
  end.
(** /repo/file/unixfile.go:93-119 *)
Definition Entries (cancel : option nat) (st : directory * world) : iter :=
  let (ls, r) := production cancel st in
  mkIter (PSend ls r) [] false None false true true None [] None false [].

(** prefetchFiles. /repo/file/unixfile.go:17 *)
Definition prefetchFiles : nat := 4.

(** Next returns. /repo/file/unixfile.go:46-83 *)
Definition returns (r : res bool) (t : iter) : iter :=
  mkIter (i_prod t) (i_buf t) (i_closed t) (i_ebuf t) (i_eclosed t) (i_files t) (i_errch t) (i_err t) (i_name t) (i_file t) false
    (i_obs t ++ [mkNext r (i_name t) (i_file t) (i_err t)]).
(** The link received is fetched and opened. /repo/file/unixfile.go:72-82 *)
Definition openLink (w : world) (l : link) (t : iter) : iter :=
  let set e name f := mkIter (i_prod t) (i_buf t) (i_closed t) (i_ebuf t) (i_eclosed t) (i_files t) (i_errch t) e name f true (i_obs t) in
  match dserv_get w (lto l) with
  | Ok nd =>
      match NewUnixfsFile w nd with
      | Ok f => returns (Ok true) (set None (lname l) (Some f))
      | Err e => returns (Ok false) (set (Some e) (lname l) None)
      | Panic => returns Panic (set None (lname l) None)
      | Fuel => returns Fuel (set None (lname l) None)
      end
  | Err e => returns (Ok false) (set (Some e) (i_name t) None)
  | Panic => returns Panic (set None (i_name t) None)
  | Fuel => returns Fuel (set None (i_name t) None)
  end.

(** No call of Next has panicked; otherwise the process has ended.
    /repo/file/unixfile.go:46-83 *)
Definition alive (obs : list nextobs) : bool := forallb (fun o => match n_res o with Ok _ => true | _ => false end) obs.

(** One step of the goroutine or of the client, which calls Next whenever it likes. The
    world [w] is that of the client's fetches; [mayc]: the context may be cancelled, so
    that a fetch of the client may fail for that reason. A ForEachLink that panics ends the
    process; that goroutine has no step then. *)
Inductive istep (w : world) (mayc : bool) : iter -> iter -> Prop :=
| I_send l r res buf c eb ec f ech e nm fl inn obs : (length buf < prefetchFiles)%nat ->       (* 102 *)
    istep w mayc (mkIter (PSend (l :: r) res) buf c eb ec f ech e nm fl inn obs)
                 (mkIter (PSend r res) (buf ++ [l]) c eb ec f ech e nm fl inn obs)
| I_result_ok buf c eb ec f ech e nm fl inn obs :       (* 97, 106 *)
    istep w mayc (mkIter (PSend [] (Ok tt)) buf c eb ec f ech e nm fl inn obs)
                 (mkIter PCloseErr buf c (Some None) ec f ech e nm fl inn obs)
| I_result_err x buf c eb ec f ech e nm fl inn obs :       (* 97, 106 *)
    istep w mayc (mkIter (PSend [] (Err x)) buf c eb ec f ech e nm fl inn obs)
                 (mkIter PCloseErr buf c (Some (Some x)) ec f ech e nm fl inn obs)
| I_close_err buf c eb ec f ech e nm fl inn obs :       (* 109 *)
    istep w mayc (mkIter PCloseErr buf c eb ec f ech e nm fl inn obs)
                 (mkIter PCloseFiles buf c eb true f ech e nm fl inn obs)
| I_close_files buf c eb ec f ech e nm fl inn obs :       (* 110 *)
    istep w mayc (mkIter PCloseFiles buf c eb ec f ech e nm fl inn obs)
                 (mkIter PDone buf true eb ec f ech e nm fl inn obs)
| I_call p buf c eb ec f ech nm fl obs : alive obs = true ->       (* 46-53 *)
    istep w mayc (mkIter p buf c eb ec f ech None nm fl false obs)
                 (mkIter p buf c eb ec f ech None nm fl true obs)
| I_call_err p buf c eb ec f ech x nm fl obs :       (* 47-49 *)
    istep w mayc (mkIter p buf c eb ec f ech (Some x) nm fl false obs)
                 (returns (Ok false) (mkIter p buf c eb ec f ech (Some x) nm fl false obs))
| I_over p buf c eb ec e nm fl obs :       (* 54-56 *)
    istep w mayc (mkIter p buf c eb ec false false e nm fl true obs)
                 (returns (Ok false) (mkIter p buf c eb ec false false e nm fl true obs))
| I_link p l buf c eb ec ech e nm fl obs :       (* 58, 72-82 *)
    istep w mayc (mkIter p (l :: buf) c eb ec true ech e nm fl true obs)
                 (openLink w l (mkIter p buf c eb ec true ech e nm fl true obs))
| I_link_cancel p l buf c eb ec ech e nm fl obs : mayc = true ->       (* 58, 74-77 *)
    istep w mayc (mkIter p (l :: buf) c eb ec true ech e nm fl true obs)
                 (returns (Ok false) (mkIter p buf c eb ec true ech (Some EOther) nm None true obs))
| I_no_link p eb ec ech e nm fl obs :       (* 58-61 *)
    istep w mayc (mkIter p [] true eb ec true ech e nm fl true obs)
                 (mkIter p [] true eb ec false ech e nm fl true obs)
| I_err p buf c x ec f e nm fl obs :       (* 62-68 *)
    istep w mayc (mkIter p buf c (Some (Some x)) ec f true e nm fl true obs)
                 (returns (Ok false) (mkIter p buf c None ec f false (Some x) nm fl true obs))
| I_no_err p buf c ec f e nm fl obs :       (* 62-66 *)
    istep w mayc (mkIter p buf c (Some None) ec f true e nm fl true obs)
                 (mkIter p buf c None ec f false None nm fl true obs)
| I_err_closed p buf c f e nm fl obs :       (* 62-66: a closed channel yields nil *)
    istep w mayc (mkIter p buf c None true f true e nm fl true obs)
                 (mkIter p buf c None true f false None nm fl true obs).

(** Executions, with the number of steps. /repo/file/unixfile.go:46-119 *)
Inductive isteps (w : world) (mayc : bool) : nat -> iter -> iter -> Prop :=
| isteps_O t : isteps w mayc 0 t t
| isteps_S n s t u : isteps w mayc n s t -> istep w mayc t u -> isteps w mayc (S n) s u.
