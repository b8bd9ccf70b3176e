(** Properties C42, C43, C68-C72: path resolution, and nodes as files. *)
From Verif Require Import Base Pb FSNode Dag Builder HashBits Bitfield SpecHash Hamt SpecHamt HamtExec HamtWitness Walk WalkWitness Directory SpecDir DirExec DirWitness Reader SpecFile SpecReader ReaderRun ReaderWitness Resolve SpecResolve ResolveProofs UnixFile SpecIter UnixFileProofs FileWitness IterProofs.

(** C42: resolving one name gives the link whose target Find returns, and the remaining
    names; on every node that is accepted as a directory. *)
Theorem C42_agrees_with_find : forall hash w nd x (k : bytes) (rest : list bytes), NewDirectoryFromNode nd = Ok x ->
  match ResolveUnixfsOnce hash w nd (k :: rest) with
  | Ok (Some l, r) => r = rest /\ fst (dFind hash k (x, w)) = dserv_get w (lto l)
  | Ok (None, r) => fst (dFind hash k (x, w)) = Panic
  | Err ELinkNotFound => fst (dFind hash k (x, w)) = Err ENotExist \/ fst (dFind hash k (x, w)) = Err ELinkNotFound
  | Err e => fst (dFind hash k (x, w)) = Err e
  | Panic => fst (dFind hash k (x, w)) = Panic
  | Fuel => fst (dFind hash k (x, w)) = Fuel
  end.
Proof. exact resolve_find. Qed.
Print Assumptions C42_agrees_with_find.

(** C42: on the node of a saved directory it is the entry with that name. *)
Theorem C42_entry : forall hash n W, (2 <= n)%nat -> (forall k, length (hash k) = n) -> valid_width W ->
  forall b w nd d (k : bytes) (rest : list bytes), saved hash W b w nd d -> k <> [] ->
  match ResolveUnixfsOnce hash w nd (k :: rest) with
  | Ok (Some l, r) => r = rest /\ d k = Some (lsize l, lto l)
  | Err e => d k = None /\ (e = ENotExist \/ e = ELinkNotFound) \/ e = EFetch /\ unreachable w
  | _ => False
  end.
Proof. exact resolve_saved. Qed.
Print Assumptions C42_entry.
Example C42_case : saved hash8 256 None wout outer (dcont full hout) /\ ResolveUnixfsOnce hash8 wout outer [nb; na] = Ok (Some (mkLink (hexpad 2 97 ++ nb) (node_size inner) inner), [na]) /\
  saved hash8 256 None wout inner (dcont full hin) /\ ResolveUnixfsOnce hash8 wout inner [na] = Ok (Some (mkLink na 1 ra), []) /\
  ResolveUnixfsOnce hash8 wout outer [na] = Err ENotExist /\ ResolveUnixfsOnce hash8 wout inner [ba] = Err ELinkNotFound.
Proof. exact resolve_case. Qed.

(** C43: whatever the interleaving of the goroutine and the client, and whatever fails, the
    entries given are entries of the directory, each given once; once Next has returned
    false with Err() nil all have been given; any other end is reported by Err(). *)
Theorem C43_entries : forall hash n W, (2 <= n)%nat -> (forall k, length (hash k) = n) -> valid_width W ->
  forall b st d w mayc cancel k t, dir_holds hash W b st d -> isteps w mayc k (Entries cancel st) t ->
  exists es rest os fs, listing d (es ++ rest) /\ i_obs t = os ++ fs /\ Forall2 (shows w) es os /\
    Forall (stops w (fun rest x => x = EFetch /\ unreachable (snd st) \/ (exists e r, rest = e :: r /\ entry_file w e = Err x) \/ mayc = true \/ cancel <> None) rest) fs.
Proof. exact entries_ok. Qed.
Print Assumptions C43_entries.

(** C43: if nothing fails, the iteration is complete. *)
Theorem C43_complete : forall hash n W b st d w k t, (2 <= n)%nat -> (forall k, length (hash k) = n) -> valid_width W -> dir_holds hash W b st d -> ~ unreachable (snd st) ->
  (forall name e, d name = Some e -> exists f, entry_file w (name, e) = Ok f) -> isteps w false k (Entries None st) t ->
  exists es rest os fs, listing d (es ++ rest) /\ i_obs t = os ++ fs /\ Forall2 (shows w) es os /\ Forall (fun o => n_res o = Ok false /\ n_err o = None) fs /\ (fs <> [] -> rest = []).
Proof. exact entries_complete. Qed.
Print Assumptions C43_complete.

(** C43: the order is that of ForEachLink. *)
Theorem C43_order : forall w mayc st k t acc R st', dEach (fun _ _ => None) st = ((R, acc), st') -> isteps w mayc k (Entries None st) t -> iterated w mayc (rev acc) R (i_obs t).
Proof. exact iteration_order. Qed.
Print Assumptions C43_order.

(** C43: if the enumeration fails, Err() is not nil when Next returns false; it is the
    error of the enumeration unless fetching or opening an entry has failed before. *)
Theorem C43_error : forall w mayc cancel st k t L x o, production cancel st = (L, Err x) -> isteps w mayc k (Entries cancel st) t -> In o (i_obs t) -> n_res o = Ok false ->
  exists y, n_err o = Some y /\ (y = x \/ mayc = true \/ exists l, In l L /\ link_file w l = Err y).
Proof. exact iteration_error. Qed.
Print Assumptions C43_error.

(** C43: a call of Next cannot get stuck, and all calls together take a bounded number of
    steps. *)
Theorem C43_next_goes_on : forall hash n W, (2 <= n)%nat -> (forall k, length (hash k) = n) -> valid_width W ->
  forall b st d w mayc cancel k t, dir_holds hash W b st d -> isteps w mayc k (Entries cancel st) t -> i_in t = true -> exists u, istep w mayc t u.
Proof. exact entries_go_on. Qed.
Print Assumptions C43_next_goes_on.
Theorem C43_next_bound : forall hash n W, (2 <= n)%nat -> (forall k, length (hash k) = n) -> valid_width W ->
  forall b st d es w mayc cancel k t, dir_holds hash W b st d -> listing d es -> isteps w mayc k (Entries cancel st) t -> (k <= 2 * length es + 2 * length (i_obs t) + 6)%nat.
Proof. exact entries_bound. Qed.
Print Assumptions C43_next_bound.
Example C43_basic_case : dir_holds hash8 256 None six (dcont full hsix) /\ exists k t, isteps full false k (Entries None six) t /\
  map (fun o => (n_res o, n_name o, n_err o)) (i_obs t) =
    [(Ok true, na, None); (Ok true, nb, None); (Ok true, nc, None); (Ok true, ba, None); (Ok true, bb, None); (Ok true, nlong, None); (Ok false, nlong, None); (Ok false, nlong, None)].
Proof. exact six_case. Qed.
Example C43_sharded_case : dir_holds hash8 256 None (DHamt h5, w5) (dcont good_store hist5) /\ exists k t, isteps full false k (Entries None (DHamt h5, w5)) t /\
  map (fun o => (n_res o, n_name o, n_err o)) (i_obs t) = [(Ok true, na, None); (Ok true, nb, None); (Ok true, ba, None); (Ok true, bb, None); (Ok false, bb, None)].
Proof. exact four_case. Qed.
Example C43_error_case : dir_holds hash8 256 None st9 (dcont noproto hist9) /\ production None st9 = ([mkLink [x41] 1 ra], Err EFetch) /\
  exists k t, isteps full false k (Entries None st9) t /\
  map (fun o => (n_res o, n_name o, n_err o)) (i_obs t) = [(Ok true, [x41], None); (Ok false, [x41], Some EFetch); (Ok false, [x41], Some EFetch)].
Proof. exact broken_case. Qed.

(** C68 is false: resolving the empty list of names in a sharded directory panics. *)
Theorem C68_empty_path_refuted : exists w nd d, saved hash8 256 None w nd d /\ ~ unreachable w /\ ResolveUnixfsOnce hash8 w nd [] = Panic.
Proof. exact empty_path_panics. Qed.
Print Assumptions C68_empty_path_refuted.

(** C69 is false: for the same entries the two forms of a directory give links with
    different names, and different errors for a missing name. *)
Theorem C69_forms_differ_refuted : exists w nd1 nd2 d1 d2 k l1 l2, saved hash8 256 None w nd1 d1 /\ saved hash8 256 None w nd2 d2 /\ deq d1 d2 /\
  ResolveUnixfsOnce hash8 w nd1 [k] = Ok (Some l1, []) /\ ResolveUnixfsOnce hash8 w nd2 [k] = Ok (Some l2, []) /\ lname l1 = k /\ lname l2 <> k /\
  exists k' e1 e2, ResolveUnixfsOnce hash8 w nd1 [k'] = Err e1 /\ ResolveUnixfsOnce hash8 w nd2 [k'] = Err e2 /\ e1 <> e2.
Proof. exact shapes_differ. Qed.
Print Assumptions C69_forms_differ_refuted.

(** C73: on a node that is not a sharded directory, unixfs or not, resolving a name gives
    the first link with that name; raw nodes have none. *)
Theorem C73_plain_node : forall hash w p d ls (k : bytes) (rest : list bytes), (forall fsn, FSNodeFromBytes d = Ok fsn -> getType fsn <> THAMTShard) ->
  match ResolveUnixfsOnce hash w (NProto p d ls) (k :: rest) with
  | Ok (Some l, r) => r = rest /\ lname l = k /\ exists a b, ls = a ++ l :: b /\ Forall (fun x => lname x <> k) a
  | Err e => e = ELinkNotFound /\ Forall (fun x => lname x <> k) ls
  | _ => False
  end.
Proof. exact resolve_plain. Qed.
Print Assumptions C73_plain_node.
Theorem C73_raw_node : forall hash w p d names, ResolveUnixfsOnce hash w (NRaw p d) names = Err ELinkNotFound.
Proof. exact resolve_raw. Qed.
Print Assumptions C73_raw_node.
Example C73_case : (exists e, FSNodeFromBytes [xff] = Err e) /\ ResolveUnixfsOnce hash8 full (NProto v0prefix [xff] [mkLink na 1 ra; mkLink nb 1 ra; mkLink nb 2 rb]) [nb; na] = Ok (Some (mkLink nb 1 ra), [na]).
Proof. exact plain_case. Qed.

(** C70: resolving a path hop by hop arrives at the node at its end. *)
Theorem C70_path : forall hash n W, (2 <= n)%nat -> (forall k, length (hash k) = n) -> valid_width W ->
  forall w nd path m, ~ unreachable w -> leads hash W w nd path m -> resolve_all hash w (length path) nd path = Ok m.
Proof. exact resolve_path. Qed.
Print Assumptions C70_path.
Theorem C70_missing : forall hash n W, (2 <= n)%nat -> (forall k, length (hash k) = n) -> valid_width W ->
  forall w nd path m b d (k : bytes) (rest : list bytes), ~ unreachable w -> leads hash W w nd path m -> saved hash W b w m d -> k <> [] -> d k = None ->
  resolve_all hash w (length path + S (length rest)) nd (path ++ k :: rest) = Err ENotExist \/ resolve_all hash w (length path + S (length rest)) nd (path ++ k :: rest) = Err ELinkNotFound.
Proof. exact resolve_missing. Qed.
Print Assumptions C70_missing.
Example C70_case : leads hash8 256 wout outer [nb; na] ra /\ ~ unreachable wout /\ resolve_all hash8 wout 2 outer [nb; na] = Ok ra.
Proof. exact path_case. Qed.

(** C71: NewUnixfsFile makes a file of a file, a link of a link and a directory of a
    directory, with the right size and contents. *)
Theorem C71_file : forall w root content ops, file_content root content -> zlen content < 9223372036854775808 -> below_available w root -> Forall op_ok ops ->
  exists r t r' pos', NewUnixfsFile w root = Ok (FFile r) /\ fsize (FFile r) = zlen content /\
    reader_run (map (fun op => (w, op)) ops) r = Some (t, r') /\ map fst t = ops /\ file_run content 0 t pos'.
Proof. exact file_opens. Qed.
Print Assumptions C71_file.
Example C71_file_case : file_content abcde [x61; x62; x63; x64; x65] /\ below_available full abcde.
Proof. exact file_case. Qed.
Theorem C71_link : forall w p ls target, zlen target < two64 -> exists b, SymlinkData target = Ok b /\ NewUnixfsFile w (NProto p b ls) = Ok (FLink target) /\ fsize (FLink target) = zlen target.
Proof. exact link_opens. Qed.
Print Assumptions C71_link.
Example C71_link_case : SymlinkData [x2f; x61] = Ok [x08; x04; x12; x02; x2f; x61] /\ NewUnixfsFile full (NProto v0prefix [x08; x04; x12; x02; x2f; x61] []) = Ok (FLink [x2f; x61]).
Proof. exact link_case. Qed.
Theorem C71_directory : forall hash n W b w nd d, (2 <= n)%nat -> (forall k, length (hash k) = n) -> valid_width W -> saved hash W b w nd d ->
  exists x, NewUnixfsFile w nd = Ok (FDir x (i64 (node_size nd))) /\ dir_holds hash W b (x, w) d.
Proof. exact directory_opens. Qed.
Print Assumptions C71_directory.
Example C71_directory_case : saved hash8 256 None wout outer (dcont full hout) /\ exists x, NewUnixfsFile wout outer = Ok (FDir x (node_size outer)).
Proof. exact dir_case. Qed.

(** C72 is false: if the client stops calling Next before the end (and does not cancel the
    context), the goroutine waits for ever: the only step left is another call of Next. *)
Theorem C72_abandoned_refuted : exists st d k t, dir_holds hash8 256 None st d /\ ~ unreachable (snd st) /\ isteps full false k (Entries None st) t /\ length (i_obs t) = 1%nat /\ Forall (fun o => n_res o = Ok true) (i_obs t) /\
  i_in t = false /\ i_prod t <> PDone /\ forall u, istep full false t u -> i_in u = true /\ i_prod u = i_prod t.
Proof. exact abandoned. Qed.
Print Assumptions C72_abandoned_refuted.

(** C72: nor does it help to iterate until Next returns false: if it does so because an
    entry cannot be opened, the goroutine waits for ever as well, whatever the client does
    with the iterator. *)
Theorem C72_error_refuted : exists st d k t o x, dir_holds hash8 256 None st d /\ ~ unreachable (snd st) /\ isteps full false k (Entries None st) t /\ i_obs t = [o] /\ n_res o = Ok false /\ n_err o = Some x /\
  i_prod t <> PDone /\ forall j u, isteps full false j t u -> i_prod u = i_prod t.
Proof. exact error_leaks. Qed.
Print Assumptions C72_error_refuted.

(** C72, when it does end: after some entries have been given and the client stops, the
    goroutine can end if and only if at most four entries are left. *)
Theorem C72_ends_iff : forall hash n W, (2 <= n)%nat -> (forall k, length (hash k) = n) -> valid_width W ->
  forall b st d es w mayc k t, dir_holds hash W b st d -> listing d es -> ~ unreachable (snd st) -> isteps w mayc k (Entries None st) t ->
  Forall (fun o => n_res o = Ok true) (i_obs t) -> i_in t = false ->
  ((exists j u, idle w mayc j t u /\ i_prod u = PDone) <-> (length es <= length (i_obs t) + 4)%nat).
Proof. exact dir_ends_iff. Qed.
Print Assumptions C72_ends_iff.
(** C72: then, or if the context is cancelled before more than four entries are waiting, it
    ends after a bounded number of steps and never waits. *)
Theorem C72_ends_always : forall hash n W, (2 <= n)%nat -> (forall k, length (hash k) = n) -> valid_width W ->
  forall b st d es w mayc cancel k t, dir_holds hash W b st d -> listing d es -> isteps w mayc k (Entries cancel st) t -> Forall (fun o => n_res o = Ok true) (i_obs t) -> i_in t = false ->
  ((length es <= length (i_obs t) + 4)%nat \/ exists i, cancel = Some i /\ (i <= length (i_obs t) + 4)%nat) ->
  forall j u, idle w mayc j t u -> (j <= length es + 3)%nat /\ (i_prod u = PDone \/ exists v, idle w mayc (S j) t v).
Proof. exact dir_ends_always. Qed.
Print Assumptions C72_ends_always.
(** C72: once Next has returned false without an error it has ended. *)
Theorem C72_drained : forall hash n W, (2 <= n)%nat -> (forall k, length (hash k) = n) -> valid_width W ->
  forall b st d w mayc cancel k t o, dir_holds hash W b st d -> isteps w mayc k (Entries cancel st) t -> In o (i_obs t) -> n_res o = Ok false -> n_err o = None -> i_prod t = PDone.
Proof. exact dir_drained. Qed.
Print Assumptions C72_drained.
Example C72_ends_case : exists k t ls, dir_holds hash8 256 None six (dcont full hsix) /\ production None six = (ls, Ok tt) /\ length ls = 6%nat /\ isteps full false k (Entries None six) t /\ length (i_obs t) = 2%nat /\ all_true t /\ i_in t = false /\ i_prod t <> PDone.
Proof. exact ends_case. Qed.
Example C72_drained_case : exists k t o, isteps full false k (Entries None six) t /\ In o (i_obs t) /\ n_res o = Ok false /\ n_err o = None.
Proof. exact drained_case. Qed.
