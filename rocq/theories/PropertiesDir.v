(** Theorems about the directories of package io (C38-C41, C62-C67). *)
From Verif Require Import Base Pb Dag HashBits SpecHash HashProofs Hamt SpecHamt HamtExec HamtWitness Walk WalkProofs WalkWitness Directory SpecDir DirExec DirFacts DirShape DirWitness DirMore.

(** C38: a basic directory is a map from names to entries, and its size estimate is
    always the exact size of that map. *)
Theorem C38_basic_directory : forall n b d0 ops w h b' w', NewDirectoryFromNode n = Ok (DBasic b) -> listing d0 (map named (node_links n)) -> brun ops (b, w) = (h, (b', w')) ->
  dconforms never never d0 h /\ map q_op h = ops /\ has_size (dcontents d0 h) (b_est b').
Proof. exact basic_history. Qed.
Print Assumptions C38_basic_directory.
Example C38_case : NewDirectoryFromNode onenode = Ok (DBasic bone) /\ listing (dput dempty nb (Some (node_entry rb))) (map named (node_links onenode)) /\
  map q_res (fst (brun bsample (bone, good_store))) =
    [Ok VUnit; Err EFetch; Ok VUnit; Ok (VNode ra); Ok VUnit; Ok (VList [(na, node_entry ra); (nb, node_entry ra)]); Err ENotExist; Ok VUnit; Ok (VList [(na, node_entry ra); (nb, node_entry ra)]); Ok VUnit; Err ENotExist] /\
  b_est (fst (snd (brun bsample (bone, good_store)))) = 38.
Proof. exact bsample_case. Qed.

(** C39: a dynamic directory is such a map too, for every sequence of thresholds: the
    contents do not change when the representation does, nor when an operation fails. *)
Theorem C39_dynamic_directory : forall hash n W b, (2 <= n)%nat -> (forall k, length (hash k) = n) -> valid_width W ->
  forall d0 w cs h st, NewDirectory b = Ok d0 -> named_dops (map snd cs) -> drun hash W false (d0, w) cs h st ->
  dconforms unreachable (crowded hash (usable n W)) dempty h.
Proof. exact history_conforms. Qed.
Print Assumptions C39_dynamic_directory.
(** Every operation returns. *)
Theorem C39_total : forall hash n W b, (2 <= n)%nat -> (forall k, length (hash k) = n) -> valid_width W ->
  forall d x w T op, dreached hash W b (x, w) d -> dname op <> Some [] -> exists r st', dexec hash W false T op (x, w) r st'.
Proof. exact total'. Qed.
Print Assumptions C39_total.
(** No operation panics, also if contexts are cancelled. *)
Theorem C39_no_panic : forall hash n W b, (2 <= n)%nat -> (forall k, length (hash k) = n) -> valid_width W ->
  forall mayc d0 w cs h st, NewDirectory b = Ok d0 -> named_dops (map snd cs) -> drun hash W mayc (d0, w) cs h st ->
  Forall (fun o => q_res o <> Panic /\ q_res o <> Fuel) h.
Proof. exact history_proper. Qed.
Print Assumptions C39_no_panic.
(** If contexts are cancelled during any of the operations, a later uncancelled
    ForEachLink still returns what the successful operations have left. *)
Theorem C39_contents_cancelled : forall hash n W b, (2 <= n)%nat -> (forall k, length (hash k) = n) -> valid_width W ->
  forall mayc d0 w cs h st r st', NewDirectory b = Ok d0 -> named_dops (map snd cs) -> drun hash W mayc (d0, w) cs h st -> dexec hash W false 0 DEach st r st' ->
  dallowed unreachable (crowded hash (usable n W)) (dcontents dempty h) (mkDobs DEach (snd st) (snd st') r).
Proof. exact history_contents. Qed.
Print Assumptions C39_contents_cancelled.
(** A history through both representations. *)
Example C39_case : valid_width 256 /\ NewDirectory None = Ok dnew /\ named_dops (map snd dsample) /\
  drun hash8 256 false (dnew, good_store) dsample (fst (dpath good_store dsample)) (dstate good_store dsample) /\
  map q_res (fst (dpath good_store dsample)) =
    [Ok VUnit; Err EFetch; Ok VUnit; Ok (VList [(na, node_entry ra); (nb, node_entry rb)]); Ok VUnit; Ok (VNode rb); Ok VUnit; Ok VUnit; Err ENotExist; Ok (VNode rb); Ok VUnit; Ok (VNode rb); Err ENotExist].
Proof. split; [exact width256|]. split; [exact dnew_ok|]. split; [apply dsample_case|]. split; [apply dpath_run; apply dsample_case|apply dsample_case]. Qed.

(** C40 is false: with one and the same threshold throughout, and every block available,
    two histories with the same contents leave different representations and roots. *)
Theorem C40_history_dependent_refuted : exists T cs1 cs2 h1 h2 st1 st2 n1 n2, Forall (fun c => fst c = T) (cs1 ++ cs2) /\ named_dops (map snd (cs1 ++ cs2)) /\
  drun hash8 256 false (dnew, good_store) cs1 h1 st1 /\ drun hash8 256 false (dnew, good_store) cs2 h2 st2 /\
  deq (dcontents dempty h1) (dcontents dempty h2) /\ ~ unreachable good_store /\
  sharded (fst st1) = false /\ sharded (fst st2) = true /\ fst (dGetNode st1) = Ok n1 /\ fst (dGetNode st2) = Ok n2 /\ seal n1 <> seal n2.
Proof. exact two_shapes. Qed.
Print Assumptions C40_history_dependent_refuted.
(** What holds of C40: as long as the size never falls from the threshold or above to
    below it, the representation is decided by the contents, and so is the root. *)
Theorem C40_growing_partial : forall hash n W b T d1 w1 cs1 h1 st1 d2 w2 cs2 h2 st2, (2 <= n)%nat -> (forall k, length (hash k) = n) -> valid_width W -> 0 < T ->
  NewDirectory b = Ok d1 -> named_dops (map snd cs1) -> Forall (fun c => fst c = T) cs1 -> drun hash W false (d1, w1) cs1 h1 st1 -> keeps T dempty h1 ->
  NewDirectory b = Ok d2 -> named_dops (map snd cs2) -> Forall (fun c => fst c = T) cs2 -> drun hash W false (d2, w2) cs2 h2 st2 -> keeps T dempty h2 ->
  deq (dcontents dempty h1) (dcontents dempty h2) ->
  sharded (fst st1) = sharded (fst st2) /\ forall n1 n2 s1 s2, dGetNode st1 = (Ok n1, s1) -> dGetNode st2 = (Ok n2, s2) -> seal n1 = seal n2.
Proof. exact fixed_root. Qed.
Print Assumptions C40_growing_partial.
Theorem C40_shape_partial : forall hash n W b, (2 <= n)%nat -> (forall k, length (hash k) = n) -> valid_width W ->
  forall T d0 w cs h st z, 0 < T -> NewDirectory b = Ok d0 -> named_dops (map snd cs) -> Forall (fun c => fst c = T) cs -> drun hash W false (d0, w) cs h st ->
  keeps T dempty h -> has_size (dcontents dempty h) z -> sharded (fst st) = (T <=? z).
Proof. exact fixed_shape. Qed.
Print Assumptions C40_shape_partial.
(** How far the representation can depend on the history: below the threshold, a directory
    stays sharded only while it is at least as large as before the operation that made
    it sharded, or as when it was loaded. *)
Theorem C40_window_partial : forall hash n W b, (2 <= n)%nat -> (forall k, length (hash k) = n) -> valid_width W ->
  forall T st1 d1 cs h st z1 z, 0 < T -> dreached hash W b st1 d1 -> sharded (fst st1) = false -> has_size d1 z1 -> z1 < T ->
  named_dops cs -> stays hash W T st1 cs h st -> cs <> [] -> has_size (dcontents d1 h) z -> T <= z \/ z1 <= z.
Proof. exact window. Qed.
Print Assumptions C40_window_partial.
Theorem C40_window_loaded_partial : forall hash n W b, (2 <= n)%nat -> (forall k, length (hash k) = n) -> valid_width W ->
  forall T0 T st0 st1 d1 cs h st z1 z, 0 < T -> dreached hash W b st0 d1 -> sharded (fst st0) = true -> dexec hash W false T0 DReload st0 (Ok VUnit) st1 -> has_size d1 z1 ->
  named_dops cs -> stays hash W T st1 cs h st -> has_size (dcontents d1 h) z -> T <= z \/ z1 <= z.
Proof. exact window_loaded. Qed.
Print Assumptions C40_window_loaded_partial.
Example C40_growing_case : dfeasible good_store hist21 = true /\ dfeasible good_store hist22 = true /\ named_dops (map snd (hist21 ++ hist22)) /\ Forall (fun c => fst c = 60) (hist21 ++ hist22) /\
  keeps 60 dempty (fst (dpath good_store hist21)) /\ keeps 60 dempty (fst (dpath good_store hist22)) /\ deq (dcont good_store hist21) (dcont good_store hist22) /\
  sharded (fst (dstate good_store hist21)) = true /\ sharded (fst (dstate good_store hist22)) = true.
Proof. exact keeps_case. Qed.
Example C40_window_case : dreached hash8 256 None (dstate good_store hist1) (dcont good_store hist1) /\ sharded (fst (dstate good_store hist1)) = false /\ has_size (dcont good_store hist1) 38 /\ named_dops updown /\
  stays hash8 256 60 (dstate good_store hist1) updown (fst (sstate (dstate good_store hist1))) (snd (sstate (dstate good_store hist1))) /\ has_size (dcontents (dcont good_store hist1) (fst (sstate (dstate good_store hist1)))) 38.
Proof. exact window_case. Qed.
Example C40_loaded_case : dreached hash8 256 None (dstate good_store hist2) (dcont good_store hist2) /\ sharded (fst (dstate good_store hist2)) = true /\ dexec hash8 256 false 60 DReload (dstate good_store hist2) (Ok VUnit) st2r /\
  stays hash8 256 60 st2r updown (fst (sstate st2r)) (snd (sstate st2r)) /\ hchange st2r = 0 /\ hchange (snd (sstate st2r)) = -2.
Proof. exact loaded_case. Qed.

(** C41: adding to a basic directory makes it sharded exactly if the threshold is not
    zero and the size after the operation reaches it. *)
Theorem C41_up : forall hash n W b, (2 <= n)%nat -> (forall k, length (hash k) = n) -> valid_width W ->
  forall d x w mayc T k nd z r st', dreached hash W b (x, w) d -> sharded x = false -> k <> [] ->
  has_size (dput d k (Some (node_entry nd))) z -> dAddChild hash W mayc T k nd (x, w) r st' ->
  (r = Ok tt -> sharded (fst st') = true <-> T <> 0 /\ T <= z) /\ (r <> Ok tt -> sharded (fst st') = false /\ T <> 0 /\ T <= z).
Proof. exact up'. Qed.
Print Assumptions C41_up.
(** A non-empty sharded directory becomes basic only if the size after the operation is
    below the threshold, whatever the order of the enumeration and the tracked estimate. *)
Theorem C41_down : forall hash n W b, (2 <= n)%nat -> (forall k, length (hash k) = n) -> valid_width W ->
  forall d x w T k nd z r st', dreached hash W b (x, w) d -> sharded x = true -> (exists y, d y <> None) -> k <> [] ->
  has_size (dput d k (option_map node_entry nd)) z ->
  match nd with Some n => dAddChild hash W false T k n | None => dRemoveChild hash false T k end (x, w) r st' ->
  sharded (fst st') = false -> r = Ok tt /\ T <> 0 /\ z < T.
Proof. exact down'. Qed.
Print Assumptions C41_down.
(** No other operation changes the representation. *)
Theorem C41_others : forall hash n W b, (2 <= n)%nat -> (forall k, length (hash k) = n) -> valid_width W ->
  forall d x w mayc T op r st', dreached hash W b (x, w) d -> dexec hash W mayc T op (x, w) r st' ->
  match op with DAdd _ _ => False | DRemove _ => sharded x = false | _ => True end -> sharded (fst st') = sharded x.
Proof. exact others'. Qed.
Print Assumptions C41_others.
(** The schedule of the enumeration has no influence: result and state are determined. *)
Theorem C41_deterministic : forall hash n W b, (2 <= n)%nat -> (forall k, length (hash k) = n) -> valid_width W ->
  forall d x w T op r1 st1 r2 st2, dreached hash W b (x, w) d -> ~ unreachable w ->
  match op with DAdd k _ | DRemove k => k <> [] | _ => False end ->
  dexec hash W false T op (x, w) r1 st1 -> dexec hash W false T op (x, w) r2 st2 -> r1 = r2 /\ st1 = st2.
Proof. exact one_result. Qed.
Print Assumptions C41_deterministic.
(** An empty sharded directory is an exception: adding an entry that alone reaches the
    threshold may make it basic. (Emptied while the threshold was zero.) *)
Theorem C41_empty_refuted : exists h w d T k nd z r st', dreached hash8 256 None (DHamt h, w) d /\ ~ unreachable w /\ k <> [] /\ dAddChild hash8 256 false T k nd (DHamt h, w) r st' /\
  has_size (dput d k (Some (node_entry nd))) z /\ T <> 0 /\ T <= z /\ r = Ok tt /\ sharded (fst st') = false.
Proof. exact empty_shrinks. Qed.
Print Assumptions C41_empty_refuted.
(** That takes a change of the threshold: with one threshold throughout, a directory whose
    size is at or above it is sharded, also after having been emptied. *)
Theorem C41_fixed_threshold : forall hash n W b, (2 <= n)%nat -> (forall k, length (hash k) = n) -> valid_width W ->
  forall T d0 w cs h st z, 0 < T -> NewDirectory b = Ok d0 -> named_dops (map snd cs) -> Forall (fun c => fst c = T) cs -> drun hash W false (d0, w) cs h st ->
  has_size (dcontents dempty h) z -> sharded (fst st) = false -> z < T.
Proof. exact fixed_basic. Qed.
Print Assumptions C41_fixed_threshold.
Example C41_fixed_case : dfeasible good_store hist2 = true /\ dfeasible good_store hist1 = true /\ named_dops (map snd (hist1 ++ hist2)) /\ Forall (fun c => fst c = 60) (hist1 ++ hist2) /\
  sharded (fst (dstate good_store hist1)) = false /\ has_size (dcont good_store hist1) 38.
Proof. split; [vm_compute; reflexivity|]. split; [vm_compute; reflexivity|]. split; [repeat constructor; discriminate|]. split; [repeat constructor|]. split; [vm_compute; reflexivity|]. apply window_case. Qed.
Example C41_up_case : dreached hash8 256 None (DBasic bup, good_store) (dcont good_store [(60, DAdd na ra)]) /\ sharded (DBasic bup) = false /\
  dAddChild hash8 256 false 60 nb rb (DBasic bup, good_store) (Ok tt) stup /\ sharded (fst stup) = true.
Proof. exact up_case. Qed.
Example C41_down_case : dreached hash8 256 None (DHamt h5, w5) (dcont good_store hist5) /\ dcont good_store hist5 bb <> None /\
  dRemoveChild hash8 false 200 bb (DHamt h5, w5) (Ok tt) (DBasic b5', w5) /\ sharded (DBasic b5') = false.
Proof. exact down_case. Qed.

(** C62 is false: RemoveChild may go on to change the shards while a worker of its own
    size check has still to read one of them; here the one with the entry to remove. *)
Theorem C62_walk_still_running_refuted : exists h w d T k h' t a l s ss cs, dreached hash8 256 None (DHamt h, w) d /\ ~ unreachable w /\ d k <> None /\
  needsToSwitchToBasicDir hash8 w false T k None h (Ok false) h' /\
  wsteps w false (walk_start 32 (h_shard h')) t /\ w_out t = a ++ [l] /\ stays_below T (- linkSize k (snd (node_entry rb))) a /\ T <= linksSize (a ++ [l]) - linkSize k (snd (node_entry rb)) /\
  In (Shards (s :: ss) cs) (w_workers t) /\ In k (map fst (sentries s)).
Proof. exact worker_left. Qed.
Print Assumptions C62_walk_still_running_refuted.
(** C62: the workers left over end by themselves. Once the context is cancelled, which the
    size check does when it returns, some goroutine can always go on although nobody
    receives entries, until all have returned; C37_ends bounds the number of steps. *)
Theorem C62_no_leak_partial : forall hash n W b s w d m t, (2 <= n)%nat -> (forall k, length (hash k) = n) -> valid_width W -> reached hash W b s w d ->
  wsteps w true (walk_start m s) t -> w_cancel t = true -> walk_over t \/ exists u, wstep w true t u /\ w_out u = w_out t.
Proof. exact abandoned_ends. Qed.
Print Assumptions C62_no_leak_partial.
Example C62_no_leak_case : reached hash8 256 None wdir wworld wcont /\ wsteps wworld true (walk_start 32 wdir) midway /\ w_cancel midway = true /\ w_out midway <> [] /\ ~ walk_over midway.
Proof. split; [exact wdir_reached|exact midway_case]. Qed.

(** C63: the root node depends on the contents, the CID builder and the representation only. *)
Theorem C63_one_root : forall hash n W b1 b2 st1 st2 d1 d2 n1 n2 s1 s2, (2 <= n)%nat -> (forall k, length (hash k) = n) -> valid_width W ->
  proto_prefix b1 = proto_prefix b2 -> dreached hash W b1 st1 d1 -> dreached hash W b2 st2 d2 -> deq d1 d2 -> sharded (fst st1) = sharded (fst st2) ->
  dGetNode st1 = (Ok n1, s1) -> dGetNode st2 = (Ok n2, s2) -> seal n1 = seal n2.
Proof. exact one_root. Qed.
Print Assumptions C63_one_root.
Example C63_case : dreached hash8 256 None (dstate good_store [(60, DAdd na ra); (60, DAdd nb rb)]) (dcont good_store [(60, DAdd na ra); (60, DAdd nb rb)]) /\
  dreached hash8 256 None (dstate good_store [(60, DAdd nb ra); (60, DAdd nb rb); (0, DAdd na ra); (60, DAdd na ra)]) (dcont good_store [(60, DAdd nb ra); (60, DAdd nb rb); (0, DAdd na ra); (60, DAdd na ra)]) /\
  deq (dcont good_store [(60, DAdd na ra); (60, DAdd nb rb)]) (dcont good_store [(60, DAdd nb ra); (60, DAdd nb rb); (0, DAdd na ra); (60, DAdd na ra)]) /\
  sharded (fst (dstate good_store [(60, DAdd na ra); (60, DAdd nb rb)])) = true /\ sharded (fst (dstate good_store [(60, DAdd nb ra); (60, DAdd nb rb); (0, DAdd na ra); (60, DAdd na ra)])) = true.
Proof. exact one_root_case. Qed.

(** C64 is false: repeating an AddChild that has just succeeded can fail because an
    unrelated shard cannot be fetched. *)
Theorem C64_repeat_fails_refuted : exists h w d T k nd st1 st2, dreached hash8 256 None (DHamt h, w) d /\ k <> [] /\
  dAddChild hash8 256 false T k nd (DHamt h, w) (Ok tt) st1 /\ dAddChild hash8 256 false T k nd st1 (Err EFetch) st2.
Proof. exact repeat_fails. Qed.
Print Assumptions C64_repeat_fails_refuted.
(** C64: as long as every block can be fetched, the second call succeeds too, unless the
    DAG service refuses to store the node again; also if the first one changed the
    representation. *)
Theorem C64_repeat_partial : forall hash n W b d x w T k nd st1 r st2, (2 <= n)%nat -> (forall k, length (hash k) = n) -> valid_width W -> dreached hash W b (x, w) d -> k <> [] ->
  dAddChild hash W false T k nd (x, w) (Ok tt) st1 -> ~ unreachable (snd st1) -> dAddChild hash W false T k nd st1 r st2 -> r = Ok tt \/ r = Err EAdd /\ add_failed (snd st1) (snd st2).
Proof. exact repeat_succeeds. Qed.
Print Assumptions C64_repeat_partial.
Example C64_repeat_case : dreached hash8 256 None (DBasic bup, good_store) (dcont good_store [(60, DAdd na ra)]) /\ dAddChild hash8 256 false 60 nb rb (DBasic bup, good_store) (Ok tt) stup /\ sharded (fst stup) = true /\ ~ unreachable (snd stup).
Proof. destruct up_case as (H1 & _ & H2 & H3). split; [exact H1|]. split; [exact H2|]. split; [exact H3|exact stup_reach]. Qed.

(** C65 is false: if the context is cancelled during the size check, RemoveChild reports
    success and the directory becomes basic although its size reaches the threshold. *)
Theorem C65_cancelled_shrinks_refuted : exists h w d T k z st', dreached hash8 256 None (DHamt h, w) d /\ k <> [] /\ d k <> None /\ dRemoveChild hash8 true T k (DHamt h, w) (Ok tt) st' /\
  has_size (dput d k None) z /\ T <> 0 /\ T <= z /\ sharded (fst st') = false.
Proof. exact cancelled_shrinks. Qed.
Print Assumptions C65_cancelled_shrinks_refuted.

(** C66 is false: if a name occurs twice in the node a basic directory was loaded from,
    removing it leaves no link but a positive size estimate, and the next AddChild makes
    the directory sharded although its size is below the threshold. *)
Theorem C66_duplicate_names_refuted : exists n b k b', NewDirectoryFromNode n = Ok (DBasic b) /\ bRemoveChild k b = (Ok tt, b') /\ b_links b' = [] /\ 0 < b_est b' /\
  exists T k2 nd st', k2 <> [] /\ has_size (dput dempty k2 (Some (node_entry nd))) (T - 1) /\ dAddChild hash8 256 false T k2 nd (DBasic b', good_store) (Ok tt) st' /\ sharded (fst st') = true.
Proof. exact estimate_wrong. Qed.
Print Assumptions C66_duplicate_names_refuted.

(** C67: a sharded directory that has just been loaded becomes basic when an operation
    makes it smaller and takes it below the threshold. *)
Theorem C67_shrinks : forall hash n W b, (2 <= n)%nat -> (forall k, length (hash k) = n) -> valid_width W ->
  forall d x0 w0 x w T0 T k nd z0 z r st', dreached hash W b (x0, w0) d -> sharded x0 = true -> dexec hash W false T0 DReload (x0, w0) (Ok VUnit) (x, w) ->
  ~ unreachable w -> k <> [] -> (nd = None -> d k <> None) -> has_size d z0 -> has_size (dput d k (option_map node_entry nd)) z -> z < z0 -> z < T ->
  match nd with Some n => dAddChild hash W false T k n | None => dRemoveChild hash false T k end (x, w) r st' -> r = Ok tt /\ sharded (fst st') = false.
Proof. exact shrinks'. Qed.
Print Assumptions C67_shrinks.
Example C67_case : dreached hash8 256 None (dstate good_store hist8) (dcont good_store hist8) /\ sharded (fst (dstate good_store hist8)) = true /\
  dexec hash8 256 false 1 DReload (dstate good_store hist8) (Ok VUnit) st8 /\ ~ unreachable (snd st8) /\ ba <> [] /\ dcont good_store hist8 ba <> None /\
  has_size (dcont good_store hist8) 114 /\ has_size (dput (dcont good_store hist8) ba None) 76.
Proof. exact shrink_case. Qed.
