(** Concrete path resolutions and iterations. *)
From Verif Require Import Base Pb FSNode Dag DagProofs Builder HashBits Bitfield SpecHash HashProofs Hamt SpecHamt HamtExec HamtWitness Walk WalkProofs WalkDir WalkWitness HamtAbs Directory SpecDir DirExec DirBasic DirectoryProofs DirFacts DirWitness Reader SpecFile SpecReader ReaderRun ReaderProofs ReaderProofs2 ReaderWitness FSNodeProofs Resolve SpecResolve ResolveProofs UnixFile SpecIter UnixFileProofs.

(** One possible schedule: the goroutine runs as far as it can, then the client. *)
Definition pstep (t : iter) : option iter :=
  let 'mkIter p buf c eb ec f ech e nm fl inn obs := t in
  match p with
  | PSend (l :: r) q => if (length buf <? prefetchFiles)%nat then Some (mkIter (PSend r q) (buf ++ [l]) c eb ec f ech e nm fl inn obs) else None
  | PSend [] (Ok _) => Some (mkIter PCloseErr buf c (Some None) ec f ech e nm fl inn obs)
  | PSend [] (Err x) => Some (mkIter PCloseErr buf c (Some (Some x)) ec f ech e nm fl inn obs)
  | PSend [] _ => None
  | PCloseErr => Some (mkIter PCloseFiles buf c eb true f ech e nm fl inn obs)
  | PCloseFiles => Some (mkIter PDone buf true eb ec f ech e nm fl inn obs)
  | PDone => None
  end.
Definition cstep (w : world) (t : iter) : option iter :=
  let 'mkIter p buf c eb ec f ech e nm fl inn obs := t in
  if inn then
    match f, buf, c, ech, eb with
    | true, l :: r, _, _, _ => Some (openLink w l (mkIter p r c eb ec true ech e nm fl true obs))
    | true, [], true, _, _ => Some (mkIter p [] true eb ec false ech e nm fl true obs)
    | _, _, _, true, Some (Some x) => Some (returns (Ok false) (mkIter p buf c None ec f false (Some x) nm fl true obs))
    | _, _, _, true, Some None => Some (mkIter p buf c None ec f false None nm fl true obs)
    | false, _, _, false, _ => Some (returns (Ok false) (mkIter p buf c eb ec false false e nm fl true obs))
    | _, _, _, _, _ => None
    end
  else match e with
    | None => if alive obs then Some (mkIter p buf c eb ec f ech None nm fl true obs) else None
    | Some x => Some (returns (Ok false) (mkIter p buf c eb ec f ech (Some x) nm fl false obs))
    end.
Lemma pstep_ok w mayc t u : pstep t = Some u -> istep w mayc t u.
Proof.
  destruct t as [p buf c eb ec f ech e nm fl inn obs]. cbn [pstep]. destruct p as [[|l r] [[]|x| |]| | |]; try discriminate; try (intros H; injection H as <-; constructor).
  all: destruct (Nat.ltb_spec (length buf) prefetchFiles); [|discriminate]; intros H1; injection H1 as <-; now constructor.
Qed.
Lemma cstep_ok w mayc t u : cstep w t = Some u -> istep w mayc t u.
Proof.
  destruct t as [p buf c eb ec f ech e nm fl inn obs]. cbn [cstep]. destruct inn.
  - destruct f, buf as [|l r], c, ech, eb as [[x|]|]; try discriminate; intros H; injection H as <-; try apply I_link; constructor.
  - destruct e; [intros H; injection H as <-; constructor|]. destruct (alive obs) eqn:E; [|discriminate]. intros H; injection H as <-. now constructor.
Qed.
Fixpoint sched (w : world) (n : nat) (t : iter) : nat * iter :=
  match n with
  | O => (O, t)
  | S m =>
      match pstep t with
      | Some u => let (k, v) := sched w m u in (S k, v)
      | None => match cstep w t with Some u => let (k, v) := sched w m u in (S k, v) | None => (O, t) end
      end
  end.
Lemma isteps_cons w mayc k s t u : istep w mayc s t -> isteps w mayc k t u -> isteps w mayc (S k) s u.
Proof. intros H1 H2. induction H2; [econstructor; [constructor|assumption]|econstructor; eauto]. Qed.
Lemma sched_ok w mayc n : forall t, isteps w mayc (fst (sched w n t)) t (snd (sched w n t)).
Proof.
  induction n as [|n IH]; intros t; cbn [sched]; [constructor|]. destruct (pstep t) as [u|] eqn:E1; [|destruct (cstep w t) as [u|] eqn:E2; [|constructor]].
  - specialize (IH u). destruct (sched w n u) as [k v]. cbn [fst snd] in *. eapply isteps_cons; [apply pstep_ok; exact E1|exact IH].
  - specialize (IH u). destruct (sched w n u) as [k v]. cbn [fst snd] in *. eapply isteps_cons; [apply cstep_ok; exact E2|exact IH].
Qed.

(** A saved directory. *)
Definition droot (w : world) (cs : list (Z * dop)) : node := match fst (dGetNode (dstate w cs)) with Ok n => seal n | _ => ra end.
Definition dworld (w : world) (cs : list (Z * dop)) : world := snd (snd (dGetNode (dstate w cs))).
Lemma wext_same w : wext w w.
Proof. split; [reflexivity|]. split; [reflexivity|]. split; [reflexivity|]. split; [exists []; now rewrite app_nil_r|lia]. Qed.
Definition is_ok {A} (r : res A) : bool := match r with Ok _ => true | _ => false end.
Lemma saved_path w cs w' : dfeasible w cs = true -> named_dops (map snd cs) -> is_ok (fst (dGetNode (dstate w cs))) = true -> wext (dworld w cs) w' -> saved hash8 256 None w' (droot w cs) (dcont w cs).
Proof.
  intros F N E X. unfold droot, dworld in *. pose proof (dstate_reached w cs F N) as R. destruct (dstate w cs) as [x0 w0]. destruct (dGetNode (x0, w0)) as [[nd| | |] [x1 w1]] eqn:G; try discriminate. cbn [fst snd] in *.
  exists x0, w0, x1, w1, nd. auto.
Qed.
Ltac savedir := apply saved_path; [vm_compute; reflexivity|repeat constructor; discriminate|vm_compute; reflexivity|apply wext_same].

(** A sharded directory with a basic directory in it. *)
Definition hin : list (Z * dop) := [(0, DAdd na ra); (0, DAdd nb rb)].
Definition inner : node := droot full hin.
Definition hout : list (Z * dop) := [(1, DAdd nb inner); (1, DAdd ba ra)].
Definition outer : node := droot full hout.
Definition wout : world := dworld full hout.
Lemma outer_saved : saved hash8 256 None wout outer (dcont full hout).
Proof. savedir. Qed.
Lemma inner_saved : saved hash8 256 None wout inner (dcont full hin).
Proof.
  apply saved_path; [vm_compute; reflexivity|repeat constructor; discriminate|vm_compute; reflexivity|].
  split; [reflexivity|]. split; [reflexivity|]. split; [reflexivity|]. split; [|vm_compute; lia]. exists (w_added wout). vm_compute. reflexivity.
Qed.
Lemma outer_reach : ~ unreachable wout.
Proof. intros [x H]. revert H. replace (w_getok wout) with (fun _ : node => true) by (vm_compute; reflexivity). discriminate. Qed.
Lemma path_case : leads hash8 256 wout outer [nb; na] ra /\ ~ unreachable wout /\ resolve_all hash8 wout 2 outer [nb; na] = Ok ra.
Proof.
  split; [|split; [exact outer_reach|vm_compute; reflexivity]].
  apply (leads_to hash8 256 wout None outer (dcont full hout) nb (node_entry inner) [na] ra outer_saved); [discriminate|vm_compute; reflexivity|vm_compute; reflexivity|].
  apply (leads_to hash8 256 wout None inner (dcont full hin) na (node_entry ra) [] ra inner_saved); [discriminate|vm_compute; reflexivity|vm_compute; reflexivity|]. constructor.
Qed.
Lemma resolve_case : saved hash8 256 None wout outer (dcont full hout) /\ ResolveUnixfsOnce hash8 wout outer [nb; na] = Ok (Some (mkLink (hexpad 2 97 ++ nb) (node_size inner) inner), [na]) /\
  saved hash8 256 None wout inner (dcont full hin) /\ ResolveUnixfsOnce hash8 wout inner [na] = Ok (Some (mkLink na 1 ra), []) /\
  ResolveUnixfsOnce hash8 wout outer [na] = Err ENotExist /\ ResolveUnixfsOnce hash8 wout inner [ba] = Err ELinkNotFound.
Proof. split; [exact outer_saved|]. split; [vm_compute; reflexivity|]. split; [exact inner_saved|]. split; [vm_compute; reflexivity|]. split; vm_compute; reflexivity. Qed.

(** The same entries in both forms. *)
Definition whist2 : world := dworld good_store hist2.
Lemma shapes_differ : exists w nd1 nd2 d1 d2 k l1 l2, saved hash8 256 None w nd1 d1 /\ saved hash8 256 None w nd2 d2 /\ deq d1 d2 /\
  ResolveUnixfsOnce hash8 w nd1 [k] = Ok (Some l1, []) /\ ResolveUnixfsOnce hash8 w nd2 [k] = Ok (Some l2, []) /\ lname l1 = k /\ lname l2 <> k /\
  exists k' e1 e2, ResolveUnixfsOnce hash8 w nd1 [k'] = Err e1 /\ ResolveUnixfsOnce hash8 w nd2 [k'] = Err e2 /\ e1 <> e2.
Proof.
  exists whist2, (droot good_store hist1), (droot good_store hist2), (dcont good_store hist1), (dcont good_store hist2), na, (mkLink na 1 ra), (mkLink (hexpad 2 97 ++ na) 1 ra).
  split; [apply saved_path; [vm_compute; reflexivity|repeat constructor; discriminate|vm_compute; reflexivity|]|].
  { split; [reflexivity|]. split; [reflexivity|]. split; [reflexivity|]. split; [|vm_compute; lia]. exists (w_added whist2). vm_compute. reflexivity. }
  split; [savedir|]. split.
  { intros k. unfold dcont. rewrite !dcontents_puts. replace (puts_of (fst (dpath good_store hist1))) with [(na, Some (node_entry ra))] by (vm_compute; reflexivity). replace (puts_of (fst (dpath good_store hist2))) with [(na, Some (node_entry ra)); (nb, Some (node_entry rb)); (nb, None)] by (vm_compute; reflexivity).
    cbn [of_puts fold_left fst snd]. unfold dput. destruct (bytes_eqb k nb) eqn:E; [|reflexivity]. apply bytes_eqb_eq in E. subst k. reflexivity. }
  split; [vm_compute; reflexivity|]. split; [vm_compute; reflexivity|]. split; [reflexivity|]. split; [discriminate|].
  exists nb, ELinkNotFound, ENotExist. split; [vm_compute; reflexivity|]. split; [vm_compute; reflexivity|discriminate].
Qed.
Lemma empty_path_panics : exists w nd d, saved hash8 256 None w nd d /\ ~ unreachable w /\ ResolveUnixfsOnce hash8 w nd [] = Panic.
Proof. exists wout, outer, (dcont full hout). split; [exact outer_saved|]. split; [exact outer_reach|vm_compute; reflexivity]. Qed.

(** Iterating: six entries in a basic directory, and four in a sharded one. *)
Definition hsix : list (Z * dop) := [(0, DAdd na ra); (0, DAdd nb rb); (0, DAdd nc inner); (0, DAdd ba ra); (0, DAdd bb rb); (0, DAdd nlong ra)].
Definition six : directory * world := dstate full hsix.
Lemma six_reached : dreached hash8 256 None six (dcont full hsix).
Proof. dreach. Qed.
Lemma six_case : dir_holds hash8 256 None six (dcont full hsix) /\ exists k t, isteps full false k (Entries None six) t /\
  map (fun o => (n_res o, n_name o, n_err o)) (i_obs t) =
    [(Ok true, na, None); (Ok true, nb, None); (Ok true, nc, None); (Ok true, ba, None); (Ok true, bb, None); (Ok true, nlong, None); (Ok false, nlong, None); (Ok false, nlong, None)].
Proof.
  split; [left; exact six_reached|]. exists (fst (sched full 28 (Entries None six))), (snd (sched full 28 (Entries None six))). split; [apply sched_ok|]. vm_compute. reflexivity.
Qed.
Lemma four_case : dir_holds hash8 256 None (DHamt h5, w5) (dcont good_store hist5) /\ exists k t, isteps full false k (Entries None (DHamt h5, w5)) t /\
  map (fun o => (n_res o, n_name o, n_err o)) (i_obs t) = [(Ok true, na, None); (Ok true, nb, None); (Ok true, ba, None); (Ok true, bb, None); (Ok false, bb, None)].
Proof.
  split; [left; exact reached5|]. exists (fst (sched full 19 (Entries None (DHamt h5, w5)))), (snd (sched full 19 (Entries None (DHamt h5, w5)))). split; [apply sched_ok|]. vm_compute. reflexivity.
Qed.
(** The shard of the second entry cannot be fetched. *)
Definition hist9 : list (Z * dop) := [(1, DAdd [x41] ra); (1, DAdd na ra); (1, DAdd nb rb); (1, DReload)].
Definition st9 : directory * world := dstate noproto hist9.
Lemma broken_case : dir_holds hash8 256 None st9 (dcont noproto hist9) /\ production None st9 = ([mkLink [x41] 1 ra], Err EFetch) /\
  exists k t, isteps full false k (Entries None st9) t /\
  map (fun o => (n_res o, n_name o, n_err o)) (i_obs t) = [(Ok true, [x41], None); (Ok false, [x41], Some EFetch); (Ok false, [x41], Some EFetch)].
Proof.
  split; [left; dreach|]. split; [vm_compute; reflexivity|]. exists (fst (sched full 10 (Entries None st9))), (snd (sched full 10 (Entries None st9))). split; [apply sched_ok|]. vm_compute. reflexivity.
Qed.
(** A client that stops before the end leaves the goroutine waiting. *)
Lemma blocked w mayc t u l r R : i_prod t = PSend (l :: r) R -> length (i_buf t) = prefetchFiles -> i_in t = false -> i_err t = None -> istep w mayc t u -> i_in u = true /\ i_prod u = i_prod t.
Proof. intros H1 H2 H3 H4 H. destruct H; cbn [i_prod i_buf i_in i_err] in *; try discriminate; [lia|auto]. Qed.
Lemma abandoned : exists st d k t, dir_holds hash8 256 None st d /\ ~ unreachable (snd st) /\ isteps full false k (Entries None st) t /\ length (i_obs t) = 1%nat /\ Forall (fun o => n_res o = Ok true) (i_obs t) /\
  i_in t = false /\ i_prod t <> PDone /\ forall u, istep full false t u -> i_in u = true /\ i_prod u = i_prod t.
Proof.
  set (t := snd (sched full 7 (Entries None six))). exists six, (dcont full hsix), (fst (sched full 7 (Entries None six))), t. split; [left; exact six_reached|].
  split; [intros [x H]; revert H; replace (w_getok (snd six)) with (fun _ : node => true) by (vm_compute; reflexivity); discriminate|]. split; [apply sched_ok|].
  split; [vm_compute; reflexivity|]. split; [replace (i_obs t) with [mkNext (Ok true) na (n_file (hd (mkNext Panic [] None None) (i_obs t))) None] by (vm_compute; reflexivity); repeat constructor|]. split; [vm_compute; reflexivity|].
  assert (E : i_prod t = PSend [mkLink nlong 1 ra] (Ok tt)) by (vm_compute; reflexivity). split; [rewrite E; discriminate|].
  intros u. eapply blocked; [exact E|vm_compute; reflexivity|vm_compute; reflexivity|vm_compute; reflexivity].
Qed.

(** Files, links and directories. *)
Lemma file_case : file_content abcde [x61; x62; x63; x64; x65] /\ below_available full abcde.
Proof. split; [exact abcde_content|apply full_below]. Qed.
Lemma link_case : SymlinkData [x2f; x61] = Ok [x08; x04; x12; x02; x2f; x61] /\ NewUnixfsFile full (NProto v0prefix [x08; x04; x12; x02; x2f; x61] []) = Ok (FLink [x2f; x61]).
Proof. split; vm_compute; reflexivity. Qed.
Lemma dir_case : saved hash8 256 None wout outer (dcont full hout) /\ exists x, NewUnixfsFile wout outer = Ok (FDir x (node_size outer)).
Proof. split; [exact outer_saved|]. eexists. vm_compute. reflexivity. Qed.
Lemma plain_case : (exists e, FSNodeFromBytes [xff] = Err e) /\ ResolveUnixfsOnce hash8 full (NProto v0prefix [xff] [mkLink na 1 ra; mkLink nb 1 ra; mkLink nb 2 rb]) [nb; na] = Ok (Some (mkLink nb 1 ra), [na]).
Proof. split; [eexists; vm_compute; reflexivity|vm_compute; reflexivity]. Qed.
