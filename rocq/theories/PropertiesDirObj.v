(** Property C98: directories do not share nodes, and the node GetNode returns. *)
From Verif Require Import Base Dag Builder Hamt HamtExec HamtWitness Walk Directory DirWitness DirObj SpecDirObj DirObjProofs DirObjRun DirObjSize DirObjWitness.

(** A node [a] a program has keeps its value in every call but these: a call that encodes it
    sorts its links; the program changes it itself; a call modifies a directory whose GetNode
    would return this very node. *)
Theorem C98_changes : forall hash W mayc st op r st' a n, oreach hash W mayc st -> oexec hash W mayc op st r st' -> node_of st a = Some n ->
  node_of st' a = Some n \/ (encodes op a /\ node_of st' a = Some (seal n)) \/ edits op a \/ exists i, modifies op i /\ answers hash W mayc st i a.
Proof. exact node_changes. Qed.
Print Assumptions C98_changes.
(** GetNode of two directories never returns the same node. *)
Theorem C98_owner : forall hash W mayc st i j a, oreach hash W mayc st -> answers hash W mayc st i a -> answers hash W mayc st j a -> i = j.
Proof. exact one_owner. Qed.
Print Assumptions C98_owner.
(** A node that is not the node of a directory never becomes one, and keeps its value for
    ever (up to the order of its links) unless the program changes it. *)
Theorem C98_frozen : forall hash W mayc ops st rs st' a n, oreach hash W mayc st -> orun hash W mayc st ops rs st' -> node_of st a = Some n -> (forall i, ~ answers hash W mayc st i a) -> (forall op, In op ops -> ~ edits op a) ->
  (node_of st' a = Some n \/ node_of st' a = Some (seal n)) /\ forall i, ~ answers hash W mayc st' i a.
Proof. exact frozen_run. Qed.
Print Assumptions C98_frozen.
(** A call on a directory that is sharded after it changes no node, also if the call converts
    the directory: then its node is left as it was. *)
Theorem C98_left : forall hash W mayc st op r st' i h a n, oreach hash W mayc st -> oexec hash W mayc op st r st' -> modifies op i -> dir_of st' i = Some (DHamt h) -> node_of st a = Some n ->
  node_of st' a = Some n \/ (encodes op a /\ node_of st' a = Some (seal n)).
Proof. exact left_alone. Qed.
Print Assumptions C98_left.
(** Nodes of no directory are those that a call makes (GetNode of a sharded directory), *)
Theorem C98_fresh : forall hash W mayc st op r st' a, oreach hash W mayc st -> oexec hash W mayc op st r st' -> r = Ok (ORef a) -> node_of st a = None -> forall j, ~ answers hash W mayc st' j a.
Proof. exact fresh_unowned. Qed.
Print Assumptions C98_fresh.
(** and a directory loaded from a node does not take it over. *)
Theorem C98_load : forall hash W mayc st a i st', oreach hash W mayc st -> oexec hash W mayc (OLoad a) st (Ok (ODir i)) st' -> ~ answers hash W mayc st' i a.
Proof. exact load_copies. Qed.
Print Assumptions C98_load.
(** A call changes no directory but the one it is made on, unless it encodes or changes that
    directory's node. *)
Theorem C98_apart : forall hash W mayc st op r st' j v, oreach hash W mayc st -> oexec hash W mayc op st r st' -> ~ modifies op j -> dir_of st j = Some v ->
  dir_of st' j = Some v \/ (exists a, answers hash W mayc st j a /\ encodes op a /\ dir_of st' j = Some (dEncoded v)) \/ exists a, answers hash W mayc st j a /\ edits op a.
Proof. exact others_kept. Qed.
Print Assumptions C98_apart.
(** The calls on a directory do what the directories of Directory.v do, about which the
    other properties speak, and whatever these can do. *)
Theorem C98_add : forall hash W mayc st i T k a n v, oreach hash W mayc st -> dir_of st i = Some v -> node_of st a = Some n ->
  (forall r st', oexec hash W mayc (OAdd i T k a) st r st' -> exists v0 r0 v', (v0 = v \/ answers hash W mayc st i a /\ v0 = dEncoded v) /\ dAddChild hash W mayc T k n (v0, o_world st) r0 (v', o_world st') /\ r = rmap (fun _ => OUnit) r0 /\ dir_of st' i = Some v') /\
  (forall r0 v' w', ~ answers hash W mayc st i a -> dAddChild hash W mayc T k n (v, o_world st) r0 (v', w') -> exists st', oexec hash W mayc (OAdd i T k a) st (rmap (fun _ => OUnit) r0) st' /\ dir_of st' i = Some v' /\ o_world st' = w').
Proof. intros hash W mayc st i T k a n v Hr Hv Hn. split; [intros r st' H; exact (add_value hash W mayc st i T k a n v r st' Hr Hv Hn H)|intros r0 v' w' Ha H; exact (add_possible hash W mayc st i T k a n v r0 v' w' Hr Hv Hn Ha H)]. Qed.
Print Assumptions C98_add.
Theorem C98_remove : forall hash W mayc st i T k v, oreach hash W mayc st -> dir_of st i = Some v ->
  (forall r st', oexec hash W mayc (ORemove i T k) st r st' -> exists r0 v', dRemoveChild hash mayc T k (v, o_world st) r0 (v', o_world st') /\ r = rmap (fun _ => OUnit) r0 /\ dir_of st' i = Some v') /\
  (forall r0 v' w', dRemoveChild hash mayc T k (v, o_world st) r0 (v', w') -> exists st', oexec hash W mayc (ORemove i T k) st (rmap (fun _ => OUnit) r0) st' /\ dir_of st' i = Some v' /\ o_world st' = w').
Proof. intros hash W mayc st i T k v Hr Hv. split; [intros r st' H; exact (remove_value hash W mayc st i T k v r st' Hr Hv H)|intros r0 v' w' H; exact (remove_possible hash W mayc st i T k v r0 v' w' Hr Hv H)]. Qed.
Print Assumptions C98_remove.
Theorem C98_get : forall hash W mayc st i v r st', oreach hash W mayc st -> dir_of st i = Some v -> oexec hash W mayc (OGet i) st r st' ->
  exists r0, dGetNode (v, o_world st) = (r0, (v, o_world st')) /\ dir_of st' i = Some v /\
    match r0 with Ok n => exists a, r = Ok (ORef a) /\ node_of st' a = Some n | Err e => r = Err e | Panic => r = Panic | Fuel => r = Fuel end.
Proof. exact get_value. Qed.
Print Assumptions C98_get.
Theorem C98_builder : forall hash W mayc st i b v r st', oreach hash W mayc st -> dir_of st i = Some v -> oexec hash W mayc (OBuilder i b) st r st' ->
  r = Ok OUnit /\ dir_of st' i = Some (dSetCidBuilder b v) /\ o_world st' = o_world st.
Proof. exact builder_value. Qed.
Print Assumptions C98_builder.
Theorem C98_new : forall hash W mayc st b r st', oexec hash W mayc (ONew b) st r st' ->
  exists i v, NewDirectory b = Ok v /\ r = Ok (ODir i) /\ dir_of st i = None /\ dir_of st' i = Some v /\ o_world st' = o_world st.
Proof. exact new_value. Qed.
Print Assumptions C98_new.
Theorem C98_loaded : forall hash W mayc st a n r st', node_of st a = Some n -> oexec hash W mayc (OLoad a) st r st' ->
  match NewDirectoryFromNode n with Ok v => exists i, r = Ok (ODir i) /\ dir_of st i = None /\ dir_of st' i = Some v /\ o_world st' = o_world st | Err e => r = Err e /\ st' = st | Panic => r = Panic | Fuel => r = Fuel end.
Proof. exact load_value. Qed.
Print Assumptions C98_loaded.
(** In programs that never change a node that is a directory's, and load only nodes with
    distinct names, a directory keeps to the threshold: it stays basic iff its entries are
    smaller. *)
Theorem C98_threshold : forall hash W mayc st i T k a n b st', creach hash W mayc st -> T <> 0 -> dir_of st i = Some (DBasic b) -> node_of st a = Some n -> oexec hash W mayc (OAdd i T k a) st (Ok OUnit) st' ->
  match dir_of st' i with
  | Some (DBasic b') => entries_size (b_links b') < T
  | Some (DHamt _) => exists b', bAddChild k n b = (Ok tt, b') /\ T <= entries_size (b_links b')
  | None => False
  end.
Proof. exact threshold. Qed.
Print Assumptions C98_threshold.

(** But the node GetNode returns is no snapshot: an AddChild after it changes the node and
    its CID. *)
Theorem C98_snapshot_refuted : exists hash W mayc st a n T k c st' n', oreach hash W mayc st /\ answers hash W mayc st 0 a /\ node_of st a = Some n /\ oexec hash W mayc (OAdd 0 T k c) st (Ok OUnit) st' /\ c <> a /\
  node_of st' a = Some n' /\ seal n <> seal n'.
Proof. exact snapshot_wrong. Qed.
Print Assumptions C98_snapshot_refuted.
(** And a program that changes the node GetNode returned changes the directory behind its
    back: it has the new entries, but its estimated size does not count them, and it stays
    above the threshold. *)
Theorem C98_edit_refuted : exists hash W mayc st b T k a st' b', oreach hash W mayc st /\ 0 < T /\ dir_of st 0 = Some (DBasic b) /\ NoDup (map lname (b_links b)) /\ oexec hash W mayc (OAdd 0 T k a) st (Ok OUnit) st' /\
  dir_of st' 0 = Some (DBasic b') /\ T < entries_size (b_links b').
Proof. exact edit_wrong. Qed.
Print Assumptions C98_edit_refuted.

(** A program: node 2 is the node of directory 0, which gets an entry; directory 1 is loaded
    from it and has node 3; directory 0 is converted, and from then on node 2 stays; its
    GetNode makes node 4, which stays, too, when the directory gets a third entry. *)
Example C98_case : oresults ops3 = [Ok (ORef 0); Ok (ORef 1); Ok (ODir 0); Ok (ORef 2); Ok OUnit; Ok (ODir 1); Ok OUnit; Ok (ORef 4); Ok OUnit] /\ orun hash8 256 false ostart ops3 (oresults ops3) (oafter ops3) /\
  answers hash8 256 false (oafter ops2) 0 2 /\ answers hash8 256 false (oafter ops3) 1 3 /\
  (forall a, ~ answers hash8 256 false (oafter ops3) 0 a) /\ node_of (oafter ops3) 2 = node_of (oafter ops2) 2 /\ option_map node_links (node_of (oafter ops2) 2) = Some [mkLink na 1 ra] /\
  node_of (oafter ops3) 3 = node_of (oafter ops2) 2 /\
  match dir_of (oafter ops3) 0 with Some (DHamt h) => exists n w, Node (h_shard h) (o_world (oafter ops3)) = (Ok n, w) /\ node_of (oafter ops3) 4 <> Some n | _ => False end.
Proof.
  split; [vm_compute; reflexivity|]. split; [apply ofollow_ok; vm_compute; reflexivity|].
  split; [split; [vm_compute; discriminate|]; exists (oafter ops2); apply ostep_ok; vm_compute; reflexivity|]. split; [split; [vm_compute; discriminate|]; exists (oafter ops3); apply ostep_ok; vm_compute; reflexivity|].
  split.
  { intros a Ha. apply answers_cell in Ha; [|apply (reach_inv hash8 256 false), oafter_reach]. destruct Ha as (d & E & Ho). vm_compute in E. injection E as <-. exact Ho. }
  split; [vm_compute; reflexivity|]. split; [vm_compute; reflexivity|]. split; [vm_compute; reflexivity|].
  vm_compute. eexists _, _. split; [reflexivity|discriminate].
Qed.
(** The hypotheses of C98_threshold are met by the careful program [ops2]. *)
Example C98_threshold_case : creach hash8 256 false (oafter ops2) /\ (exists st', oexec hash8 256 false (OAdd 0 80 nb 1) (oafter ops2) (Ok OUnit) st' /\ match dir_of st' 0 with Some (DBasic b') => entries_size (b_links b') = 76 | _ => False end) /\
  (exists st', oexec hash8 256 false (OAdd 0 76 nb 1) (oafter ops2) (Ok OUnit) st' /\ match dir_of st' 0 with Some (DHamt _) => True | _ => False end).
Proof.
  split.
  - apply (careful_follow ops2) with (st := ostart) (rs := oresults ops2); [unfold ops2, ops1; repeat constructor|constructor|apply ofollow_ok; vm_compute; reflexivity].
  - split; [exists (oafter (ops2 ++ [OAdd 0 80 nb 1]))|exists (oafter (ops2 ++ [OAdd 0 76 nb 1]))]; (split; [apply ostep_ok; vm_compute; reflexivity|]); vm_compute; [reflexivity|exact Logic.I].
Qed.
