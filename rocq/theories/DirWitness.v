(** Concrete runs of directories. *)
From Verif Require Import Base Pb FSNode Dag DagProofs Builder HashBits Bitfield SpecHash HashProofs Hamt SpecHamt HamtExec HamtWitness Walk WalkProofs WalkDir WalkWitness HamtAbs Directory SpecDir DirExec DirBasic DirectoryProofs DirFacts.

(** Operations that make no size check of a sharded directory can be computed. *)
Definition nocheck hash (w : world) (T : Z) (k : bytes) (nd : option node) (h : hamtdir) : option hamtdir :=
  if T =? 0 then Some h
  else
    match Find hash w k (h_shard h) with
    | (Ok (Some l), s) => if 0 <=? h_change h + (newSize k nd - linkSize k (lto l)) then Some (mkHD s (h_change h)) else None
    | (Err ENotExist, s) => if 0 <=? h_change h + (newSize k nd - 0) then Some (mkHD s (h_change h)) else None
    | _ => None
    end.
Lemma nocheck_ok hash w mayc T k nd h h' : nocheck hash w T k nd h = Some h' -> needsToSwitchToBasicDir hash w mayc T k nd h (Ok false) h'.
Proof.
  unfold nocheck, needsToSwitchToBasicDir. destruct (T =? 0); [intros E; injection E as <-; auto|]. destruct (Find hash w k (h_shard h)) as [[[l|]|e| |] s]; try discriminate.
  - destruct (0 <=? _) eqn:E; [|discriminate]. intros H; injection H as <-. auto.
  - destruct e; try discriminate. destruct (0 <=? _) eqn:E; [|discriminate]. intros H; injection H as <-. auto.
Qed.
Definition dstep hash W (T : Z) (op : dop) (st : directory * world) : option (res hval * (directory * world)) :=
  let (d, w) := st in
  let u (x : res unit * (directory * world)) := Some (rmap (fun _ => VUnit) (fst x), snd x) in
  match op, d with
  | DAdd k n, DBasic b =>
      if needsToSwitchToHAMTDir T k (Some n) b then
        match switchToSharding hash W w b with
        | Ok h => match hAddChild hash k n (h, w) with (Ok _, (h1, w1)) => u (Ok tt, (DHamt h1, w1)) | (e, (_, w1)) => u (e, (DBasic b, w1)) end
        | _ => None
        end
      else match bAddChild k n b with (r, b1) => u (r, (DBasic b1, w)) end
  | DAdd k n, DHamt h =>
      match nocheck hash w T k (Some n) h with
      | Some h1 => match hAddChild hash k n (h1, w) with (r, (h2, w1)) => u (r, (DHamt h2, w1)) end
      | None => None
      end
  | DRemove k, DBasic b => match bRemoveChild k b with (r, b1) => u (r, (DBasic b1, w)) end
  | DRemove k, DHamt h =>
      match nocheck hash w T k None h with
      | Some h1 => match hRemoveChild hash w k h1 with (r, h2) => u (r, (DHamt h2, w)) end
      | None => None
      end
  | DFind k, _ => match dFind hash k st with (r0, st1) => Some (rmap VNode r0, st1) end
  | DEach, _ => match dEach (fun _ _ => None) st with ((r0, acc), st1) => Some (rmap (fun _ => VList (map named (rev acc))) r0, st1) end
  | DReload, _ => u (dReload st)
  | DStore n, _ => match dserv_add n None w with (r0, w1) => u (r0, (d, w1)) end
  | DLinks, DBasic b => Some (Ok (VList (map named (b_links b))), st)
  | DLinks, DHamt _ => None
  end.
Lemma dstep_ok hash W mayc T op st r st' : dstep hash W T op st = Some (r, st') -> dexec hash W mayc T op st r st'.
Proof.
  destruct st as [d w]. destruct op as [k n|k|k| | | |n]; cbn [dstep dexec].
  - destruct d as [b|h].
    + intros H. destruct (needsToSwitchToHAMTDir T k (Some n) b) eqn:E.
      * destruct (switchToSharding hash W w b) as [h| | |] eqn:Es; try discriminate. destruct (hAddChild hash k n (h, w)) as [[[]|e| |] [h1 w1]] eqn:Eh; injection H as <- <-; cbn [fst snd]; [exists (Ok tt)|exists (Err e)|exists Panic|exists Fuel]; (split; [|reflexivity]); cbn [dAddChild]; rewrite E, Es, Eh; auto.
      * destruct (bAddChild k n b) as [r1 b1] eqn:Eb. injection H as <- <-. exists r1. split; [|reflexivity]. cbn [dAddChild]. rewrite E, Eb. auto.
    + intros H. destruct (nocheck hash w T k (Some n) h) as [h1|] eqn:E; [|discriminate]. destruct (hAddChild hash k n (h1, w)) as [r1 [h2 w1]] eqn:Eh. injection H as <- <-. exists r1. split; [|reflexivity]. cbn [dAddChild fst snd].
      exists (Ok false), h1. split; [now apply nocheck_ok|]. now rewrite Eh.
  - destruct d as [b|h].
    + intros H. destruct (bRemoveChild k b) as [r1 b1] eqn:Eb. injection H as <- <-. exists r1. split; [|reflexivity]. cbn [dRemoveChild]. rewrite Eb. auto.
    + intros H. destruct (nocheck hash w T k None h) as [h1|] eqn:E; [|discriminate]. destruct (hRemoveChild hash w k h1) as [r1 h2] eqn:Eh. injection H as <- <-. exists r1. split; [|reflexivity]. cbn [dRemoveChild fst snd].
      exists (Ok false), h1. split; [now apply nocheck_ok|]. now rewrite Eh.
  - destruct (dFind hash k (d, w)) as [r0 st1]. intros H; injection H as <- <-. auto.
  - destruct d; [|discriminate]. intros H; injection H as <- <-. exists (Ok (b_links b)). split; [constructor|reflexivity].
  - destruct (dEach _ (d, w)) as [[r0 acc] st1]. intros H; injection H as <- <-. auto.
  - destruct (dReload (d, w)) as [r0 st1]. intros H; injection H as <- <-. auto.
  - cbn [fst snd]. destruct (dserv_add n None w) as [r0 w1]. intros H; injection H as <- <-. auto.
Qed.
Fixpoint dfollow hash W (cs : list (Z * dop)) (st : directory * world) : option (list dobs * (directory * world)) :=
  match cs with
  | [] => Some ([], st)
  | (T, op) :: r =>
      match dstep hash W T op st with
      | Some (v, st1) => match dfollow hash W r st1 with Some (h, st2) => Some (mkDobs op (snd st) (snd st1) v :: h, st2) | None => None end
      | None => None
      end
  end.
Lemma dfollow_ok hash W mayc cs : forall st h st', dfollow hash W cs st = Some (h, st') -> drun hash W mayc st cs h st'.
Proof.
  induction cs as [|[T op] cs IH]; intros st h st' H; cbn [dfollow] in H; [injection H as <- <-; constructor|].
  destruct (dstep hash W T op st) as [[v st1]|] eqn:E; [|discriminate]. destruct (dfollow hash W cs st1) as [[h1 st2]|] eqn:E1; [|discriminate]. injection H as <- <-. econstructor; [now apply dstep_ok|now apply IH].
Qed.

(** The new directory, and directories reached by computation. *)
Definition dnew : directory := match NewDirectory None with Ok d => d | _ => DHamt (mkHD dir256 0) end.
Lemma dnew_ok : NewDirectory None = Ok dnew.
Proof. vm_compute. reflexivity. Qed.
Definition dpath (w : world) (cs : list (Z * dop)) : list dobs * (directory * world) :=
  match dfollow hash8 256 cs (dnew, w) with Some x => x | None => ([], (dnew, w)) end.
Definition dstate w cs := snd (dpath w cs).
Definition dcont w cs : dir := dcontents dempty (fst (dpath w cs)).
Definition dfeasible w (cs : list (Z * dop)) : bool := match dfollow hash8 256 cs (dnew, w) with Some _ => true | None => false end.
Lemma dpath_run mayc w cs : dfeasible w cs = true -> drun hash8 256 mayc (dnew, w) cs (fst (dpath w cs)) (dstate w cs).
Proof. unfold dstate, dpath, dfeasible. destruct (dfollow hash8 256 cs (dnew, w)) as [[h st]|] eqn:E; [|discriminate]. intros _. now apply dfollow_ok. Qed.
Lemma dstate_reached w cs : dfeasible w cs = true -> named_dops (map snd cs) -> dreached hash8 256 None (dstate w cs) (dcont w cs).
Proof. intros F N. exists dnew, w, cs, (fst (dpath w cs)). split; [exact dnew_ok|]. split; [assumption|]. split; [now apply dpath_run|reflexivity]. Qed.
Ltac dreach := apply dstate_reached; [vm_compute; reflexivity|repeat constructor; discriminate].

Definition ra : node := rawn x01.
Definition rb : node := rawn x02.
Definition hshard (st : directory * world) : shard := match fst st with DHamt h => h_shard h | DBasic _ => dir256 end.
Definition hchange (st : directory * world) : Z := match fst st with DHamt h => h_change h | DBasic _ => 0 end.
Lemma good_reach : ~ unreachable good_store.
Proof. intros [x H]. discriminate. Qed.

(** A longer history, with both switches. *)
Definition dsample : list (Z * dop) :=
  [(60, DAdd na ra); (60, DFind na); (60, DAdd nb rb); (60, DEach); (60, DReload); (60, DFind nb); (0, DRemove na); (60, DStore ra); (60, DFind na); (60, DFind nb); (60, DStore rb); (60, DFind nb); (0, DRemove nc)].
Lemma dsample_case : dfeasible good_store dsample = true /\ named_dops (map snd dsample) /\
  map q_res (fst (dpath good_store dsample)) =
    [Ok VUnit; Err EFetch; Ok VUnit; Ok (VList [(na, node_entry ra); (nb, node_entry rb)]); Ok VUnit; Ok (VNode rb); Ok VUnit; Ok VUnit; Err ENotExist; Ok (VNode rb); Ok VUnit; Ok (VNode rb); Err ENotExist].
Proof. split; [vm_compute; reflexivity|]. split; [repeat constructor; discriminate|]. vm_compute. reflexivity. Qed.

(** The directory is sharded when the second entry is added (each link has 38 bytes), and
    stays so when that entry is removed again. *)
Definition hist1 : list (Z * dop) := [(60, DAdd na ra)].
Definition hist2 : list (Z * dop) := [(60, DAdd na ra); (60, DAdd nb rb); (60, DRemove nb)].
Definition root1 : node := match fst (dGetNode (dstate good_store hist1)) with Ok n => n | _ => ra end.
Definition root2 : node := match fst (dGetNode (dstate good_store hist2)) with Ok n => n | _ => ra end.
Definition puts_of (h : list dobs) : list (bytes * option dentry) :=
  flat_map (fun o => match q_res o, q_op o with Ok _, DAdd k n => [(k, Some (node_entry n))] | Ok _, DRemove k => [(k, None)] | _, _ => [] end) h.
Definition of_puts (l : list (bytes * option dentry)) (d : dir) : dir := fold_left (fun d p => dput d (fst p) (snd p)) l d.
Lemma dcontents_puts h : forall d, dcontents d h = of_puts (puts_of h) d.
Proof.
  induction h as [|o h IH]; intros d; [reflexivity|]. cbn [dcontents fold_left puts_of flat_map]. fold (puts_of h). change (fold_left deffect h ?x) with (dcontents x h). rewrite IH. unfold of_puts at 2. rewrite fold_left_app. fold (of_puts (puts_of h)). f_equal.
  unfold deffect. destruct (q_res o), (q_op o); reflexivity.
Qed.
Ltac dconts := unfold dcont; rewrite dcontents_puts; match goal with |- context [puts_of ?h] => let v := eval vm_compute in (puts_of h) in replace (puts_of h) with v by (vm_compute; reflexivity) end.
Lemma two_shapes : exists T cs1 cs2 h1 h2 st1 st2 n1 n2, Forall (fun c => fst c = T) (cs1 ++ cs2) /\ named_dops (map snd (cs1 ++ cs2)) /\
  drun hash8 256 false (dnew, good_store) cs1 h1 st1 /\ drun hash8 256 false (dnew, good_store) cs2 h2 st2 /\
  deq (dcontents dempty h1) (dcontents dempty h2) /\ ~ unreachable good_store /\
  sharded (fst st1) = false /\ sharded (fst st2) = true /\ fst (dGetNode st1) = Ok n1 /\ fst (dGetNode st2) = Ok n2 /\ seal n1 <> seal n2.
Proof.
  exists 60, hist1, hist2, (fst (dpath good_store hist1)), (fst (dpath good_store hist2)), (dstate good_store hist1), (dstate good_store hist2), root1, root2.
  split; [repeat constructor|]. split; [repeat constructor; discriminate|]. split; [apply dpath_run; vm_compute; reflexivity|]. split; [apply dpath_run; vm_compute; reflexivity|].
  split; [intros k; rewrite !dcontents_puts|].
  { replace (puts_of (fst (dpath good_store hist1))) with [(na, Some (node_entry ra))] by (vm_compute; reflexivity). replace (puts_of (fst (dpath good_store hist2))) with [(na, Some (node_entry ra)); (nb, Some (node_entry rb)); (nb, None)] by (vm_compute; reflexivity).
    cbn [of_puts fold_left fst snd]. unfold dput. destruct (bytes_eqb k nb) eqn:E; [|reflexivity]. apply bytes_eqb_eq in E. subst k. reflexivity. }
  split; [exact good_reach|]. split; [vm_compute; reflexivity|]. split; [vm_compute; reflexivity|]. split; [vm_compute; reflexivity|]. split; [vm_compute; reflexivity|]. vm_compute. discriminate.
Qed.

(** An empty sharded directory, emptied while the switch was off: adding an entry makes
    it basic although the entry alone exceeds the threshold. *)
Definition hist3 : list (Z * dop) := [(1, DAdd na ra); (1, DReload); (0, DRemove na)].
Definition st3 := dstate good_store hist3.
Definition h3 : hamtdir := mkHD (hshard st3) (hchange st3).
Definition w3 : world := snd st3.
Definition b3 : basic := match fst (switchToBasic w3 h3) with Ok b => b | _ => mkBasic v0prefix [] [] 0 end.
Definition b3' : basic := snd (bAddChild nc rb b3).
Lemma d3_empty k : dcont good_store hist3 k = None.
Proof.
  unfold dcont. rewrite dcontents_puts. replace (puts_of (fst (dpath good_store hist3))) with [(na, Some (node_entry ra)); (na, None)] by (vm_compute; reflexivity).
  cbn [of_puts fold_left fst snd]. unfold dput. destruct (bytes_eqb k na); reflexivity.
Qed.
Lemma reached3 : dreached hash8 256 None (DHamt h3, w3) (dcont good_store hist3).
Proof. change (DHamt h3, w3) with (DHamt h3, w3). replace (DHamt h3, w3) with (dstate good_store hist3) by (vm_compute; reflexivity). dreach. Qed.
Lemma w3_reach : ~ unreachable w3.
Proof. intros [x H]. unfold w3, st3 in H. assert (E : w_getok (snd (dstate good_store hist3)) x = true) by (vm_compute; reflexivity). congruence. Qed.
Lemma empty_shrinks : exists h w d T k nd z r st', dreached hash8 256 None (DHamt h, w) d /\ ~ unreachable w /\ k <> [] /\ dAddChild hash8 256 false T k nd (DHamt h, w) r st' /\
  has_size (dput d k (Some (node_entry nd))) z /\ T <> 0 /\ T <= z /\ r = Ok tt /\ sharded (fst st') = false.
Proof.
  exists h3, w3, (dcont good_store hist3), 1, nc, rb, 37, (Ok tt), (DBasic b3', w3).
  split; [exact reached3|]. split; [exact w3_reach|]. split; [discriminate|]. split; [|split; [|repeat split; lia]].
  - destruct folder_data as [D HD]. pose proof (reached_good hash8 8 256 None ltac:(lia) hash8_len width256 D HD _ _ reached3) as [_ G]. cbn [fst snd] in G.
    exists (Ok true), h3. split.
    + unfold needsToSwitchToBasicDir. change (1 =? 0) with false. cbv iota. replace (Find hash8 w3 nc (h_shard h3)) with (@Err (option link) ENotExist, h_shard h3) by (vm_compute; reflexivity). split; [reflexivity|].
      replace (0 <=? h_change h3 + (newSize nc (Some rb) - 0)) with false by (vm_compute; reflexivity). eapply size_check_empty; [|exact d3_empty|exact w3_reach|lia]. exact (good_facts hash8 8 256 _ hash8_len (HPb None) _ _ _ G).
    + exists (Ok b3), (snd (switchToBasic w3 h3)). split; [vm_compute; reflexivity|]. replace (bAddChild nc rb b3) with (@Ok unit tt, b3') by (vm_compute; reflexivity). auto.
  - pose proof (has_size_put (dcont good_store hist3) 0 nc (Some (node_entry rb))) as H. rewrite d3_empty in H. apply H. exists []. split; [|reflexivity]. split; [constructor|]. intros k e. rewrite d3_empty. split; [intros []|discriminate].
Qed.

(** A size check that returns while a worker has still to read the sub-shard that the
    caller goes on to change. *)
Definition ba : bytes := [x62; x61].
Definition bb : bytes := [x62; x62].
Definition hist5 : list (Z * dop) := [(1, DAdd na ra); (1, DAdd nb rb); (1, DAdd ba ra); (1, DAdd bb rb); (1, DReload); (1, DFind na); (1, DFind ba)].
Definition h5 : hamtdir := mkHD (hshard (dstate good_store hist5)) (hchange (dstate good_store hist5)).
Definition w5 : world := snd (dstate good_store hist5).
Definition h5' : hamtdir := mkHD (snd (Find hash8 w5 bb (h_shard h5))) (h_change h5).
Definition t5 : walk := follow w5 (repeat 0%nat 14) (walk_start 32 (h_shard h5')).
Definition s5 : shard := match w_workers t5 with Shards (s :: _) _ :: _ => s | _ => dir256 end.
Lemma reached5 : dreached hash8 256 None (DHamt h5, w5) (dcont good_store hist5).
Proof. replace (DHamt h5, w5) with (dstate good_store hist5) by (vm_compute; reflexivity). dreach. Qed.
Lemma worker_left : exists h w d T k h' t a l s ss cs, dreached hash8 256 None (DHamt h, w) d /\ ~ unreachable w /\ d k <> None /\
  needsToSwitchToBasicDir hash8 w false T k None h (Ok false) h' /\
  wsteps w false (walk_start 32 (h_shard h')) t /\ w_out t = a ++ [l] /\ stays_below T (- linkSize k (snd (node_entry rb))) a /\ T <= linksSize (a ++ [l]) - linkSize k (snd (node_entry rb)) /\
  In (Shards (s :: ss) cs) (w_workers t) /\ In k (map fst (sentries s)).
Proof.
  exists h5, w5, (dcont good_store hist5), 1, bb, h5', t5, [mkLink na 1 ra], (mkLink nb 1 rb), s5, [], [].
  assert (Ho : w_out t5 = [mkLink na 1 ra] ++ [mkLink nb 1 rb]) by (vm_compute; reflexivity).
  assert (Hb : stays_below 1 (- linkSize bb (snd (node_entry rb))) [mkLink na 1 ra]).
  { intros a b E Ha. destruct a as [|x a]; [congruence|]. injection E as <- E. destruct a; [|discriminate]. vm_compute. reflexivity. }
  split; [exact reached5|]. split; [intros [x H]; assert (E : w_getok w5 x = true) by (vm_compute; reflexivity); congruence|]. split; [vm_compute; discriminate|].
  split; [|split; [apply follow_ok|split; [exact Ho|split; [exact Hb|split; [vm_compute; discriminate|split; [vm_compute; now left|vm_compute; right; now left]]]]]].
  unfold needsToSwitchToBasicDir. change (1 =? 0) with false. cbv iota. 
  replace (Find hash8 w5 bb (h_shard h5)) with (@Ok (option link) (Some (mkLink (hexpad 2 98 ++ bb) 1 rb)), h_shard h5') by (vm_compute; reflexivity). split; [vm_compute; reflexivity|].
  replace (0 <=? h_change h5 + (newSize bb None - linkSize bb (lto (mkLink (hexpad 2 98 ++ bb) 1 rb)))) with false by (vm_compute; reflexivity).
  apply (SB_above w5 false 1 (h_shard h5') _ t5 [mkLink na 1 ra] (mkLink nb 1 rb) []); [lia|apply follow_ok|exact Ho|exact Hb|vm_compute; discriminate].
Qed.

(** The context is cancelled during the size check: the directory becomes basic although
    it is above the threshold. All shards are in memory, so nothing has to be fetched. *)
Definition b5 : basic := match fst (switchToBasic w5 h5') with Ok b => b | _ => mkBasic v0prefix [] [] 0 end.
Definition b5' : basic := snd (bRemoveChild bb b5).
Lemma cancelled_shrinks : exists h w d T k z st', dreached hash8 256 None (DHamt h, w) d /\ k <> [] /\ d k <> None /\ dRemoveChild hash8 true T k (DHamt h, w) (Ok tt) st' /\
  has_size (dput d k None) z /\ T <> 0 /\ T <= z /\ sharded (fst st') = false.
Proof.
  exists h5, w5, (dcont good_store hist5), 1, bb, (b_est b5'), (DBasic b5', w5).
  split; [exact reached5|]. split; [discriminate|]. split; [vm_compute; discriminate|]. split; [|split; [|split; [lia|split; [vm_compute; discriminate|reflexivity]]]].
  - exists (Ok true), h5'. split.
    + unfold needsToSwitchToBasicDir. change (1 =? 0) with false. cbv iota.
      replace (Find hash8 w5 bb (h_shard h5)) with (@Ok (option link) (Some (mkLink (hexpad 2 98 ++ bb) 1 rb)), h_shard h5') by (vm_compute; reflexivity). split; [vm_compute; reflexivity|].
      replace (0 <=? h_change h5 + (newSize bb None - linkSize bb (lto (mkLink (hexpad 2 98 ++ bb) 1 rb)))) with false by (vm_compute; reflexivity).
      eapply (SB_below w5 true 1 (h_shard h5') _ (early 32 (h_shard h5')) []); [lia|apply early_ok|apply early_over|]. intros a b E Ha. destruct a; [congruence|discriminate].
    + exists (Ok b5), (snd (switchToBasic w5 h5')). split; [vm_compute; reflexivity|]. replace (bRemoveChild bb b5) with (@Ok unit tt, b5') by (vm_compute; reflexivity). auto.
  - destruct folder_data as [D HD]. pose proof (reached_good hash8 8 256 None ltac:(lia) hash8_len width256 D HD _ _ reached5) as [_ G]. cbn [fst snd] in G.
    pose proof (good_find hash8 8 256 _ ltac:(lia) hash8_len (HPb None) _ _ _ bb G ltac:(discriminate)) as F.
    replace (Find hash8 w5 bb (h_shard h5)) with (@Ok (option link) (Some (mkLink (hexpad 2 98 ++ bb) 1 rb)), h_shard h5') in F by (vm_compute; reflexivity). destruct F as [F _].
    pose proof (switchToBasic_spec hash8 8 256 _ hash8_len (HPb None) D HD w5 _ h5' F) as S. replace (switchToBasic w5 h5') with (Ok b5, snd (switchToBasic w5 h5')) in S by (vm_compute; reflexivity). destruct S as (_ & _ & S).
    pose proof (bRemoveChild_spec _ _ _ _ bb S) as R. destruct (dcont good_store hist5 bb) eqn:E; [|exfalso; revert E; vm_compute; discriminate]. destruct R as (b' & R & B). unfold b5'. rewrite R. exact (bgood_size _ _ _ _ B).
Qed.

(** Overwriting an entry with itself: no size check the first time, one the second time,
    because the tracked change of size drifts; it needs a shard that cannot be fetched. *)
Definition noproto : world := mkWorld (w_has good_store) (w_added good_store) (w_calls good_store) (w_addok good_store) (fun n => match n with NProto _ _ _ => false | _ => true end).
Definition hist6 : list (Z * dop) := [(100, DAdd na ra); (100, DAdd nb rb); (100, DAdd nc ra); (100, DReload)].
Definition h6 : hamtdir := mkHD (hshard (dstate noproto hist6)) (hchange (dstate noproto hist6)).
Definition w6 : world := snd (dstate noproto hist6).
Definition st7 : directory * world := match dstep hash8 256 100 (DAdd nc rb) (DHamt h6, w6) with Some (_, st) => st | None => (DHamt h6, w6) end.
Definition h7 : hamtdir := mkHD (hshard st7) (hchange st7).
Definition h7' : hamtdir := mkHD (snd (Find hash8 (snd st7) nc (h_shard h7))) (h_change h7).
Definition t7m : walk := follow (snd st7) (repeat 0%nat 40) (walk_start 32 (h_shard h7')).
Definition t7 : walk := follow (snd st7) (seq 0 32) (stopped t7m).
Lemma reached6 : dreached hash8 256 None (DHamt h6, w6) (dcont noproto hist6).
Proof. replace (DHamt h6, w6) with (dstate noproto hist6) by (vm_compute; reflexivity). dreach. Qed.
Lemma repeat_fails : exists h w d T k nd st1 st2, dreached hash8 256 None (DHamt h, w) d /\ k <> [] /\
  dAddChild hash8 256 false T k nd (DHamt h, w) (Ok tt) st1 /\ dAddChild hash8 256 false T k nd st1 (Err EFetch) st2.
Proof.
  exists h6, w6, (dcont noproto hist6), 100, nc, rb, st7, (DHamt h7', snd st7).
  split; [exact reached6|]. split; [discriminate|]. split.
  - assert (E : dstep hash8 256 100 (DAdd nc rb) (DHamt h6, w6) = Some (Ok VUnit, st7)) by (vm_compute; reflexivity). apply dstep_ok with (mayc := false) in E. destruct E as (r0 & E & Er). destruct r0 as [[]| | |]; try discriminate. exact E.
  - assert (E : st7 = (DHamt h7, snd st7)) by (vm_compute; reflexivity). rewrite E at 1. exists (Err EFetch), h7'. split; [|split; reflexivity].
    unfold needsToSwitchToBasicDir. change (100 =? 0) with false. cbv iota. replace (Find hash8 (snd st7) nc (h_shard h7)) with (@Ok (option link) (Some (mkLink (hexpad 2 0 ++ nc) 1 rb)), h_shard h7') by (vm_compute; reflexivity). split; [vm_compute; reflexivity|].
    replace (0 <=? h_change h7 + (newSize nc (Some rb) - linkSize nc (lto (mkLink (hexpad 2 0 ++ nc) 1 rb)))) with false by (vm_compute; reflexivity).
    apply (SB_err (snd st7) false 100 (h_shard h7') _ t7 (w_out t7) EFetch); [lia| | |].
    + eapply wsteps_trans; [apply (follow_ok (snd st7) false (repeat 0%nat 40))|]. eapply wsteps_trans; [apply stopped_ok; vm_compute; reflexivity|]. apply follow_ok.
    + split; [|split; [reflexivity|left; vm_compute; reflexivity]]. split; [|vm_compute; reflexivity]. assert (E2 : w_workers t7 = repeat Exited 32) by (vm_compute; reflexivity). rewrite E2. apply Forall_forall. intros x Hx. now apply repeat_spec in Hx.
    + assert (E2 : map lname (w_out t7) = [nc]) by (vm_compute; reflexivity). intros a b Ea Ha. rewrite Ea in E2. destruct a as [|x [|y a]]; [now destruct Ha| |discriminate E2].
      assert (E3 : linksSize (firstn 1 (w_out t7)) + (newSize nc (Some rb) - linkSize nc (lto (mkLink (hexpad 2 0 ++ nc) 1 rb))) < 100) by (vm_compute; reflexivity). rewrite Ea in E3. exact E3.
Qed.

(** A basic directory loaded from a node with two links of one name. *)
Definition fdata : bytes := match FolderPBData with Ok d => d | _ => [] end.
Definition twice : node := NProto v0prefix fdata [mkLink na 1 ra; mkLink na 1 rb].
Definition btwice : basic := newBasicDirectoryFromNode v0prefix fdata (node_links twice).
Lemma estimate_wrong : exists n b k b', NewDirectoryFromNode n = Ok (DBasic b) /\ bRemoveChild k b = (Ok tt, b') /\ b_links b' = [] /\ 0 < b_est b' /\
  exists T k2 nd st', k2 <> [] /\ has_size (dput dempty k2 (Some (node_entry nd))) (T - 1) /\ dAddChild hash8 256 false T k2 nd (DBasic b', good_store) (Ok tt) st' /\ sharded (fst st') = true.
Proof.
  exists twice, btwice, na, (snd (bRemoveChild na btwice)). split; [vm_compute; reflexivity|]. split; [vm_compute; reflexivity|]. split; [vm_compute; reflexivity|]. split; [vm_compute; reflexivity|].
  exists 39, nb, rb. set (x := match dstep hash8 256 39 (DAdd nb rb) (DBasic (snd (bRemoveChild na btwice)), good_store) with Some (_, st) => st | None => (dnew, good_store) end).
  exists x. split; [discriminate|]. split; [|split].
  - exists [(nb, node_entry rb)]. split; [|vm_compute; reflexivity]. split; [repeat constructor; intros []|]. intros k e. unfold dput. destruct (bytes_eqb k nb) eqn:E.
    + apply bytes_eqb_eq in E. subst k. cbn [In]. split; [intros [H|[]]; congruence|intros H; left; congruence].
    + split; [|discriminate]. intros [H|[]]. injection H as <- _. exfalso. apply (f_equal negb) in E. vm_compute in E. discriminate.
  - assert (E : dstep hash8 256 39 (DAdd nb rb) (DBasic (snd (bRemoveChild na btwice)), good_store) = Some (Ok VUnit, x)) by (vm_compute; reflexivity). apply dstep_ok with (mayc := false) in E. destruct E as (r0 & E & Er). destruct r0 as [[]| | |]; try discriminate. exact E.
  - vm_compute. reflexivity.
Qed.

(** A basic directory loaded from a node, and a history. *)
Definition onenode : node := NProto v0prefix fdata [mkLink nb 1 rb].
Definition bsample : list dop := [DAdd na ra; DFind na; DStore ra; DFind na; DAdd nb ra; DLinks; DRemove nc; DReload; DEach; DRemove na; DRemove na].
Definition bone : basic := newBasicDirectoryFromNode v0prefix fdata (node_links onenode).
Lemma bsample_case : NewDirectoryFromNode onenode = Ok (DBasic bone) /\ listing (dput dempty nb (Some (node_entry rb))) (map named (node_links onenode)) /\
  map q_res (fst (brun bsample (bone, good_store))) =
    [Ok VUnit; Err EFetch; Ok VUnit; Ok (VNode ra); Ok VUnit; Ok (VList [(na, node_entry ra); (nb, node_entry ra)]); Err ENotExist; Ok VUnit; Ok (VList [(na, node_entry ra); (nb, node_entry ra)]); Ok VUnit; Err ENotExist] /\
  b_est (fst (snd (brun bsample (bone, good_store)))) = 38.
Proof.
  split; [vm_compute; reflexivity|]. split; [|split; vm_compute; reflexivity]. split; [repeat constructor; intros []|]. intros k e. unfold dput. destruct (bytes_eqb k nb) eqn:E.
  - apply bytes_eqb_eq in E. subst k. change (map named (node_links onenode)) with [(nb, node_entry rb)]. cbn [In]. split; [intros [H|[]]; congruence|intros H; left; congruence].
  - split; [|discriminate]. intros [H|[]]. injection H as <- _. exfalso. apply (f_equal negb) in E. vm_compute in E. discriminate.
Qed.

(** Both switches at a fixed threshold. *)
Definition bup : basic := match fst (dstate good_store [(60, DAdd na ra)]) with DBasic b => b | DHamt _ => bone end.
Definition stup : directory * world := dstate good_store [(60, DAdd na ra); (60, DAdd nb rb)].
Lemma up_case : dreached hash8 256 None (DBasic bup, good_store) (dcont good_store [(60, DAdd na ra)]) /\ sharded (DBasic bup) = false /\
  dAddChild hash8 256 false 60 nb rb (DBasic bup, good_store) (Ok tt) stup /\ sharded (fst stup) = true.
Proof.
  split; [|split; [reflexivity|split; [|vm_compute; reflexivity]]].
  - replace (DBasic bup, good_store) with (dstate good_store [(60, DAdd na ra)]) by (vm_compute; reflexivity). dreach.
  - assert (E : dstep hash8 256 60 (DAdd nb rb) (DBasic bup, good_store) = Some (Ok VUnit, stup)) by (vm_compute; reflexivity). apply dstep_ok with (mayc := false) in E. destruct E as (r0 & E & Er). destruct r0 as [[]| | |]; try discriminate. exact E.
Qed.
(** Removing one of the four entries of [hist5] at a threshold of 200: the enumeration
    finds all of them. *)
Definition tdown : walk := follow w5 (flat_map (fun _ => [0]%nat) (seq 0 60) ++ seq 0 32) (walk_start 32 (h_shard h5')).
Lemma down_case : dreached hash8 256 None (DHamt h5, w5) (dcont good_store hist5) /\ dcont good_store hist5 bb <> None /\
  dRemoveChild hash8 false 200 bb (DHamt h5, w5) (Ok tt) (DBasic b5', w5) /\ sharded (DBasic b5') = false.
Proof.
  split; [exact reached5|]. split; [vm_compute; discriminate|]. split; [|reflexivity]. exists (Ok true), h5'. split.
  - unfold needsToSwitchToBasicDir. change (200 =? 0) with false. cbv iota.
    replace (Find hash8 w5 bb (h_shard h5)) with (@Ok (option link) (Some (mkLink (hexpad 2 98 ++ bb) 1 rb)), h_shard h5') by (vm_compute; reflexivity). split; [vm_compute; reflexivity|].
    replace (0 <=? h_change h5 + (newSize bb None - linkSize bb (lto (mkLink (hexpad 2 98 ++ bb) 1 rb)))) with false by (vm_compute; reflexivity).
    eapply (SB_below w5 false 200 (h_shard h5') _ tdown (w_out tdown)); [lia|apply follow_ok| |].
    + split; [|split; [reflexivity|left; vm_compute; reflexivity]]. split; [|vm_compute; reflexivity]. assert (E2 : w_workers tdown = repeat Exited 32) by (vm_compute; reflexivity). rewrite E2. apply Forall_forall. intros x Hx. now apply repeat_spec in Hx.
    + assert (F : forallb (fun i => linksSize (firstn i (w_out tdown)) + (newSize bb None - linkSize bb (lto (mkLink (hexpad 2 98 ++ bb) 1 rb))) <? 200) (seq 0 5) = true) by (vm_compute; reflexivity).
      assert (L : length (w_out tdown) = 4%nat) by (vm_compute; reflexivity). intros a b Ea Ha. rewrite forallb_forall in F. assert (Ia : In (length a) (seq 0 5)). { apply in_seq. rewrite Ea, app_length in L. lia. }
      specialize (F _ Ia). rewrite Ea, firstn_app, firstn_all, PeanoNat.Nat.sub_diag, firstn_O, app_nil_r in F. now apply Z.ltb_lt in F.
  - exists (Ok b5), (snd (switchToBasic w5 h5')). split; [vm_compute; reflexivity|]. replace (bRemoveChild bb b5) with (@Ok unit tt, b5') by (vm_compute; reflexivity). auto.
Qed.

(** Two histories to the same contents and representation. *)
Lemma one_root_case : dreached hash8 256 None (dstate good_store [(60, DAdd na ra); (60, DAdd nb rb)]) (dcont good_store [(60, DAdd na ra); (60, DAdd nb rb)]) /\
  dreached hash8 256 None (dstate good_store [(60, DAdd nb ra); (60, DAdd nb rb); (0, DAdd na ra); (60, DAdd na ra)]) (dcont good_store [(60, DAdd nb ra); (60, DAdd nb rb); (0, DAdd na ra); (60, DAdd na ra)]) /\
  deq (dcont good_store [(60, DAdd na ra); (60, DAdd nb rb)]) (dcont good_store [(60, DAdd nb ra); (60, DAdd nb rb); (0, DAdd na ra); (60, DAdd na ra)]) /\
  sharded (fst (dstate good_store [(60, DAdd na ra); (60, DAdd nb rb)])) = true /\ sharded (fst (dstate good_store [(60, DAdd nb ra); (60, DAdd nb rb); (0, DAdd na ra); (60, DAdd na ra)])) = true.
Proof.
  split; [dreach|]. split; [dreach|]. split; [|split; vm_compute; reflexivity]. intros k. unfold dcont. rewrite !dcontents_puts.
  replace (puts_of (fst (dpath good_store [(60, DAdd na ra); (60, DAdd nb rb)]))) with [(na, Some (node_entry ra)); (nb, Some (node_entry rb))] by (vm_compute; reflexivity).
  replace (puts_of (fst (dpath good_store [(60, DAdd nb ra); (60, DAdd nb rb); (0, DAdd na ra); (60, DAdd na ra)]))) with [(nb, Some (node_entry ra)); (nb, Some (node_entry rb)); (na, Some (node_entry ra)); (na, Some (node_entry ra))] by (vm_compute; reflexivity).
  cbn [of_puts fold_left fst snd]. unfold dput. destruct (bytes_eqb k nb) eqn:E; [|now destruct (bytes_eqb k na)]. apply bytes_eqb_eq in E. subst k. reflexivity.
Qed.

(** A directory just loaded, above the threshold; removing an entry takes it below. *)
Definition hist8 : list (Z * dop) := [(1, DAdd na ra); (1, DAdd nb rb); (1, DAdd ba ra)].
Definition st8 : directory * world := match dstep hash8 256 1 DReload (dstate good_store hist8) with Some (_, st) => st | None => (dnew, good_store) end.
Lemma size_put d z k v z' : has_size d z -> z' = z + (osize k v - osize k (d k)) -> has_size (dput d k v) z'.
Proof. intros H ->. now apply has_size_put. Qed.
Lemma empty_size : has_size dempty 0.
Proof. exists []. split; [|reflexivity]. split; [constructor|]. intros k e. split; [intros []|discriminate]. Qed.
Lemma shrink_case : dreached hash8 256 None (dstate good_store hist8) (dcont good_store hist8) /\ sharded (fst (dstate good_store hist8)) = true /\
  dexec hash8 256 false 1 DReload (dstate good_store hist8) (Ok VUnit) st8 /\ ~ unreachable (snd st8) /\ ba <> [] /\ dcont good_store hist8 ba <> None /\
  has_size (dcont good_store hist8) 114 /\ has_size (dput (dcont good_store hist8) ba None) 76.
Proof.
  assert (Hz : has_size (dcont good_store hist8) 114).
  { unfold dcont. rewrite dcontents_puts. replace (puts_of (fst (dpath good_store hist8))) with [(na, Some (node_entry ra)); (nb, Some (node_entry rb)); (ba, Some (node_entry ra))] by (vm_compute; reflexivity). cbn [of_puts fold_left fst snd].
    apply size_put with (z := 76); [|vm_compute; reflexivity]. apply size_put with (z := 38); [|vm_compute; reflexivity]. apply size_put with (z := 0); [exact empty_size|vm_compute; reflexivity]. }
  split; [dreach|]. split; [vm_compute; reflexivity|]. split; [apply dstep_ok; vm_compute; reflexivity|]. split; [intros [x H]; assert (E : w_getok (snd st8) x = true) by (vm_compute; reflexivity); congruence|]. split; [discriminate|]. split; [vm_compute; discriminate|].
  split; [exact Hz|]. apply size_put with (z := 114); [exact Hz|vm_compute; reflexivity].
Qed.

(** Histories under one threshold that never fall below it again. *)
Definition hist21 : list (Z * dop) := [(60, DAdd na ra); (60, DAdd nb rb)].
Definition hist22 : list (Z * dop) := [(60, DAdd nb rb); (60, DFind nb); (60, DAdd na ra)].
Lemma size_new z : has_size dempty z -> z = 0.
Proof. intros H. eapply size_unique; [exact H|]. exists []. split; [|reflexivity]. split; [constructor|]. intros k e. split; [intros []|discriminate]. Qed.
Lemma new_size : has_size dempty 0.
Proof. exists []. split; [|reflexivity]. split; [constructor|]. intros k e. split; [intros []|discriminate]. Qed.
Lemma size_one k e z : has_size (dput dempty k (Some e)) z -> z = linkSize k (snd e).
Proof. intros H. rewrite (size_unique _ _ _ H (has_size_put dempty 0 k (Some e) new_size)). unfold dempty, osize, entry_size, linkSize. cbn [fst snd]. lia. Qed.
Definition below_all (T : Z) (d : dir) := forall z, has_size d z -> z < T.
Lemma keeps_below T d o h : below_all T d -> keeps T (deffect d o) h -> keeps T d (o :: h).
Proof. intros H K. split; [|exact K]. intros z z' Hz _ Hl. specialize (H z Hz). lia. Qed.
Lemma below_new T : 0 < T -> below_all T dempty.
Proof. intros H z Hz. rewrite (size_new z Hz). assumption. Qed.
Lemma keeps_case : dfeasible good_store hist21 = true /\ dfeasible good_store hist22 = true /\ named_dops (map snd (hist21 ++ hist22)) /\ Forall (fun c => fst c = 60) (hist21 ++ hist22) /\
  keeps 60 dempty (fst (dpath good_store hist21)) /\ keeps 60 dempty (fst (dpath good_store hist22)) /\ deq (dcont good_store hist21) (dcont good_store hist22) /\
  sharded (fst (dstate good_store hist21)) = true /\ sharded (fst (dstate good_store hist22)) = true.
Proof.
  split; [vm_compute; reflexivity|]. split; [vm_compute; reflexivity|]. split; [repeat constructor; discriminate|]. split; [repeat constructor|].
  assert (Hb : forall k e, linkSize k (snd e) = 38 -> below_all 60 (dput dempty k (Some e))) by (intros k e E z Hz; rewrite (size_one k e z Hz); lia).
  split. { assert (E : map (fun o => (q_op o, q_res o)) (fst (dpath good_store hist21)) = [(DAdd na ra, Ok VUnit); (DAdd nb rb, Ok VUnit)]) by (vm_compute; reflexivity).
    remember (fst (dpath good_store hist21)) as h eqn:X. clear X. destruct h as [|o1 [|o2 [|]]]; try discriminate. injection E as E1 E2 _ _.
    apply keeps_below; [apply below_new; lia|]. apply keeps_below; [|exact I]. unfold deffect. rewrite E1, E2. apply Hb. vm_compute. reflexivity. }
  split. { assert (E : map (fun o => (q_op o, q_res o)) (fst (dpath good_store hist22)) = [(DAdd nb rb, Ok VUnit); (DFind nb, Err EFetch); (DAdd na ra, Ok VUnit)]) by (vm_compute; reflexivity).
    remember (fst (dpath good_store hist22)) as h eqn:X. clear X. destruct h as [|o1 [|o2 [|o3 [|]]]]; try discriminate. injection E as E1 E2 E3 E4 _ _.
    assert (Hd : deffect dempty o1 = dput dempty nb (Some (node_entry rb))) by (unfold deffect; now rewrite E1, E2). assert (Hd2 : deffect (dput dempty nb (Some (node_entry rb))) o2 = dput dempty nb (Some (node_entry rb))) by (unfold deffect; now rewrite E4).
    assert (Hb1 : below_all 60 (dput dempty nb (Some (node_entry rb)))) by (apply Hb; vm_compute; reflexivity).
    apply keeps_below; [apply below_new; lia|]. rewrite Hd. apply keeps_below; [exact Hb1|]. rewrite Hd2. apply keeps_below; [exact Hb1|exact I]. }
  split. { intros k. unfold dcont. rewrite !dcontents_puts. replace (puts_of (fst (dpath good_store hist21))) with [(na, Some (node_entry ra)); (nb, Some (node_entry rb))] by (vm_compute; reflexivity). replace (puts_of (fst (dpath good_store hist22))) with [(nb, Some (node_entry rb)); (na, Some (node_entry ra))] by (vm_compute; reflexivity).
    cbn [of_puts fold_left fst snd]. unfold dput. destruct (bytes_eqb k nb) eqn:E1, (bytes_eqb k na) eqn:E2; try reflexivity. apply bytes_eqb_eq in E1. subst k. discriminate. }
  split; vm_compute; reflexivity.
Qed.

(** Stays that can be computed. *)
Definition reloads (op : dop) : bool := match op with DReload => true | _ => false end.
Fixpoint sfollow hash W T (cs : list dop) (st : directory * world) : option (list dobs * (directory * world)) :=
  match cs with
  | [] => Some ([], st)
  | op :: r =>
      match dstep hash W T op st with
      | Some (v, st1) => if sharded (fst st1) && negb (reloads op) then match sfollow hash W T r st1 with Some (h, st2) => Some (mkDobs op (snd st) (snd st1) v :: h, st2) | None => None end else None
      | None => None
      end
  end.
Lemma sfollow_ok hash W T cs : forall st h st', sfollow hash W T cs st = Some (h, st') -> stays hash W T st cs h st'.
Proof.
  induction cs as [|op cs IH]; intros st h st' H; cbn [sfollow] in H; [injection H as <- <-; constructor|].
  destruct (dstep hash W T op st) as [[v st1]|] eqn:E; [|discriminate]. destruct (sharded (fst st1)) eqn:Es; [|discriminate]. cbn [andb] in H. destruct (reloads op) eqn:Er; [discriminate|]. cbn [negb] in H.
  destruct (sfollow hash W T cs st1) as [[h1 st2]|] eqn:E1; [|discriminate]. injection H as <- <-. econstructor; [now apply dstep_ok|assumption|intros ->; discriminate|now apply IH].
Qed.
Definition updown : list dop := [DAdd nb rb; DRemove nb].
Definition sstate st := match sfollow hash8 256 60 updown st with Some x => x | None => ([], st) end.
Definition st2r : directory * world := snd (dReload (dstate good_store hist2)).
Lemma window_case : dreached hash8 256 None (dstate good_store hist1) (dcont good_store hist1) /\ sharded (fst (dstate good_store hist1)) = false /\ has_size (dcont good_store hist1) 38 /\ named_dops updown /\
  stays hash8 256 60 (dstate good_store hist1) updown (fst (sstate (dstate good_store hist1))) (snd (sstate (dstate good_store hist1))) /\ has_size (dcontents (dcont good_store hist1) (fst (sstate (dstate good_store hist1)))) 38.
Proof.
  assert (H1 : has_size (dput dempty na (Some (node_entry ra))) 38) by exact (has_size_put dempty 0 na (Some (node_entry ra)) new_size).
  split; [dreach|]. split; [vm_compute; reflexivity|]. split; [dconts; exact H1|]. split; [repeat constructor; discriminate|]. split; [apply sfollow_ok; vm_compute; reflexivity|].
  rewrite dcontents_puts. replace (puts_of (fst (sstate (dstate good_store hist1)))) with [(nb, Some (node_entry rb)); (nb, None)] by (vm_compute; reflexivity). dconts. cbn [of_puts fold_left fst snd].
  pose proof (has_size_put _ _ nb (Some (node_entry rb)) H1) as H2. exact (has_size_put _ _ nb None H2).
Qed.
Lemma loaded_case : dreached hash8 256 None (dstate good_store hist2) (dcont good_store hist2) /\ sharded (fst (dstate good_store hist2)) = true /\ dexec hash8 256 false 60 DReload (dstate good_store hist2) (Ok VUnit) st2r /\
  stays hash8 256 60 st2r updown (fst (sstate st2r)) (snd (sstate st2r)) /\ hchange st2r = 0 /\ hchange (snd (sstate st2r)) = -2.
Proof.
  split; [dreach|]. split; [vm_compute; reflexivity|]. split; [|split; [apply sfollow_ok; vm_compute; reflexivity|split; vm_compute; reflexivity]].
  unfold st2r. destruct (dstate good_store hist2) as [x w] eqn:E. change (dexec hash8 256 false 60 DReload (x, w) (Ok VUnit) (snd (dReload (x, w)))). cbn [dexec]. rewrite <- E. destruct (dReload (dstate good_store hist2)) as [r st1] eqn:E2. split; [reflexivity|].
  assert (Er : fst (dReload (dstate good_store hist2)) = Ok tt) by (vm_compute; reflexivity). rewrite E2 in Er. cbn [fst] in Er. now subst r.
Qed.
