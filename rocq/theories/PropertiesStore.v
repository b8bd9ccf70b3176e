(** Properties C90 to C93. *)
From Verif Require Import Base Pb FSNode Dag Builder Balanced Trickle Importer Modifier Hamt HamtExec Directory DirExec SpecHamt SpecDir
  SpecFile SpecReader SpecLocal SpecStore SpecStoreDir SpecAppend SpecModifier ModifierRun ModifierFacts AppendRun HamtWitness DirWitness ReaderWitness
  PropertiesAppend StoreProofs.

(** C90: a successful import adds exactly the blocks of the file, children before parents,
    from left to right ([blocks]). *)
Theorem C90_balanced_blocks : forall fuel dbp fi spl w root w', balanced_import fuel dbp fi spl w = (Ok root, w') ->
  exists added, w_added w' = w_added w ++ added /\ map fst added = blocks root.
Proof. exact balanced_blocks. Qed.
Print Assumptions C90_balanced_blocks.
Theorem C90_trickle_blocks : forall fuel dbp fi spl w root w', 1 <= pr_maxlinks dbp -> (length spl < fuel)%nat ->
  trickle_import fuel dbp fi spl w = (Ok root, w') ->
  exists added, w_added w' = w_added w ++ added /\ map fst added = blocks root.
Proof. exact trickle_blocks. Qed.
Print Assumptions C90_trickle_blocks.
(** Whatever happens, an import or an append never leaves a block in the store without its
    children, at no moment. *)
Theorem C90_balanced_closed : forall fuel dbp fi spl w, closed w -> closed_throughout w (snd (balanced_import fuel dbp fi spl w)).
Proof. exact balanced_closed. Qed.
Print Assumptions C90_balanced_closed.
Theorem C90_trickle_closed : forall fuel dbp fi spl w, closed w -> closed_throughout w (snd (trickle_import fuel dbp fi spl w)).
Proof. exact trickle_closed. Qed.
Print Assumptions C90_trickle_closed.
Theorem C90_append_closed : forall fuel rfuel dbp fi spl base w, closed w -> has_children w base ->
  closed_throughout w (snd (trickle_append fuel rfuel dbp fi spl base w)).
Proof. exact append_closed. Qed.
Print Assumptions C90_append_closed.
(** Ten chunks with two links per node; a store that takes two blocks and no more; and
    a file that is appended to. *)
Example C90_case : closed astore /\ closed two_adds /\ 1 <= pr_maxlinks (limit 2) /\ (length (map EvData ten) < 20)%nat /\
  (exists root w', balanced_import 20 (limit 2) false (map EvData ten) astore = (Ok root, w') /\ length (w_added w') = 21%nat) /\
  (exists root w', trickle_import 20 (limit 2) false (map EvData ten) astore = (Ok root, w') /\ length (w_added w') = 15%nat) /\
  (exists w', balanced_import 20 (limit 2) false (map EvData ten) two_adds = (Err EAdd, w') /\ length (w_added w') = 2%nat) /\
  has_children (snd ten_import) ten_base /\ (length (w_added (snd (trickle_append 9 9 (limit 2) false (map EvData more) ten_base (snd ten_import)))) = 21)%nat.
Proof.
  split; [exact astore_closed|]. split; [exact two_adds_closed|]. split; [cbn; lia|]. split; [apply Nat.ltb_lt; reflexivity|].
  split; [eexists _, _; split; [vm_compute; reflexivity|vm_compute; reflexivity]|].
  split; [eexists _, _; split; [vm_compute; reflexivity|vm_compute; reflexivity]|].
  split; [eexists; split; [vm_compute; reflexivity|vm_compute; reflexivity]|]. split; [|vm_compute; reflexivity].
  apply children_check. vm_compute. reflexivity.
Qed.

(** C91: appending to a file that is [appendable] (see C14) needs no other blocks than those at the right edge of the file. *)
Theorem C91_append_fetches : forall fuel rfuel dbp fi chunks base w old,
  1 <= pr_maxlinks dbp -> (length chunks < fuel)%nat -> (height base <= rfuel)%nat ->
  file_content base old -> appendable (pr_maxlinks dbp) base ->
  source_ok BlockSizeLimit chunks -> can_add w -> (pr_nocopy dbp = true -> fi = true) ->
  (forall m, edge (pr_maxlinks dbp) (node_links base) m -> dserv_get w m = Ok m) ->
  exists root w', trickle_append fuel rfuel dbp fi (map EvData chunks) base w = (Ok root, root, w').
Proof. exact append_fetches. Qed.
Print Assumptions C91_append_fetches.
(** It writes the blocks with new data and the ones at the right edge, and no other. *)
Theorem C91_append_writes : forall fuel rfuel dbp fi spl base w root base' w' old,
  1 <= pr_maxlinks dbp -> (length spl < fuel)%nat -> (height base <= rfuel)%nat ->
  file_content base old -> appendable (pr_maxlinks dbp) base ->
  trickle_append fuel rfuel dbp fi spl base w = (Ok root, base', w') ->
  exists added, w_added w' = w_added w ++ added /\ grew (pr_maxlinks dbp) (node_links base) (node_links root) (map fst added).
Proof. exact append_writes. Qed.
Print Assumptions C91_append_writes.
(** All other blocks of the file are blocks of the new file, at the same place. *)
Theorem C91_append_keeps : forall fuel rfuel dbp fi spl base w root base' w' old lo hi m,
  1 <= pr_maxlinks dbp -> (length spl < fuel)%nat -> (height base <= rfuel)%nat ->
  file_content base old -> appendable (pr_maxlinks dbp) base ->
  trickle_append fuel rfuel dbp fi spl base w = (Ok root, base', w') ->
  block_at base lo hi m -> ~ edge (pr_maxlinks dbp) (node_links base) m -> block_at root lo hi m.
Proof. exact append_keeps. Qed.
Print Assumptions C91_append_keeps.
(** The file of ten chunks without the block of its first byte. *)
Definition first_leaf : node := match node_links ten_base with l :: _ => lto l | [] => ten_base end.
Definition headless : world :=
  mkWorld (fun _ => false) (w_added (snd ten_import)) 0 (fun _ => true) (fun n => negb (node_eqb n first_leaf)).
Example C91_case : 1 <= pr_maxlinks (limit 2) /\ (length more < 9)%nat /\ (height ten_base <= 9)%nat /\
  (exists old, file_content ten_base old) /\ appendable 2 ten_base /\ source_ok BlockSizeLimit more /\ can_add headless /\
  dserv_get headless first_leaf <> Ok first_leaf /\ block_at ten_base 0 1 first_leaf /\ ~ edge 2 (node_links ten_base) first_leaf /\
  (exists m, edge 2 (node_links ten_base) m) /\
  (forall m, edge (pr_maxlinks (limit 2)) (node_links ten_base) m -> dserv_get headless m = Ok m) /\
  length (w_added (snd (trickle_append 9 9 (limit 2) false (map EvData more) ten_base headless))) = 21%nat.
Proof.
  assert (X : forall m, edge 2 (node_links ten_base) m -> m = lto (last (node_links ten_base) (nolink ten_base))).
  { intros m H. apply (edge_inv (nolink ten_base)) in H as ([H|H] & _); [exact H|]. apply (edge_inv (nolink ten_base)) in H as (_ & L). vm_compute in L. discriminate. }
  split; [cbn; lia|]. split; [apply Nat.ltb_lt; reflexivity|]. split; [apply Nat.leb_le; vm_compute; reflexivity|].
  split.
  { exists (concat (concat [ten])). apply (C14_history (limit 2)); [cbn; lia|].
    apply (h_import (limit 2) 20 false ten astore ten_base (snd ten_import)); [apply Nat.leb_le|]; vm_compute; reflexivity. }
  split; [apply (C14_trickle_appendable 2 false (Some v0prefix)); [lia|apply C15_case]|].
  split; [repeat constructor; discriminate|]. split; [intros i; reflexivity|]. split; [vm_compute; discriminate|].
  split.
  { change 0 with (zlen (concat (@nil bytes))) at 1. apply (ba_child ten_base [] (hd (nolink ten_base) (node_links ten_base)) (tl (node_links ten_base)) [] [x61]); [vm_compute; reflexivity|constructor|].
    apply tb_leaf. replace (lto (hd (nolink ten_base) (node_links ten_base))) with (NProto (resolve v0prefix) [x08; x00; x12; x01; x61; x18; x01] []) by (vm_compute; reflexivity).
    apply (lb_proto _ _ (mkData (Some 0) (Some [x61]) (Some 1) [] None None [])); [vm_compute; reflexivity|vm_compute; auto]. }
  split; [intros H; apply X in H; vm_compute in H; discriminate|]. split; [|split; [intros m H; apply X in H as ->; vm_compute; reflexivity|vm_compute; reflexivity]].
  exists (lto (nth 5 (node_links ten_base) (nolink ten_base))).
  replace (node_links ten_base) with (firstn 5 (node_links ten_base) ++ [nth 5 (node_links ten_base) (nolink ten_base)]) at 1 by (vm_compute; reflexivity).
  apply ed_last. vm_compute. reflexivity.
Qed.

(** C92: a modifier on a file whose blocks are in the store never leaves a block in the
    store without its children: the calls before succeeded ([mod_run]), the last one may
    fail. *)
Theorem C92_modifier_closed_partial : forall split wbsize ops op root w t s, closed w -> has_children w root ->
  mod_run split wbsize ops (NewDagModifier root, w) = Some (t, s) -> closed_throughout w (snd (mod_after split wbsize op s)).
Proof. exact modifier_closed. Qed.
Print Assumptions C92_modifier_closed_partial.
(** If all Adds work, the calls before may fail, too. *)
Theorem C92_modifier_closed_errors_partial : forall split wbsize ops root w, closed w -> has_children w root -> can_add w ->
  closed_throughout w (snd (mod_history split wbsize ops (NewDagModifier root, w))).
Proof. exact modifier_closed_errors. Qed.
Print Assumptions C92_modifier_closed_errors_partial.
(** All blocks below the node that GetNode returns are in the store. *)
Theorem C92_modifier_complete_partial : forall split wbsize ops root w h n w' s, closed w -> has_children w root ->
  mod_run split wbsize ops (NewDagModifier root, w) = Some (h ++ [(MGetNode, BNode n, w')], s) ->
  forall l m, In l (node_links n) -> reach (lto l) m -> stored w' m = true.
Proof. exact modifier_complete. Qed.
Print Assumptions C92_modifier_complete_partial.
Example C92_case : closed (just_abcde (fun _ => true)) /\ has_children (just_abcde (fun _ => true)) abcde /\ can_add (just_abcde (fun _ => true)) /\
  exists h n w' s, mod_run bytewise wb [MWriteAt [x58] 1; MTruncate 7; MGetNode] (NewDagModifier abcde, just_abcde (fun _ => true)) = Some (h ++ [(MGetNode, BNode n, w')], s) /\
    length (node_links n) = 3%nat /\ length (w_added w') = 4%nat.
Proof.
  split; [apply just_closed|]. split; [apply just_children|]. split; [intros i; reflexivity|]. eexists [_; _], _, _, _. cbn [app].
  split; [vm_compute; reflexivity|]. split; vm_compute; reflexivity.
Qed.
(** After an Add has failed this no longer holds: the next Truncate succeeds, and its
    result lacks a child. *)
Theorem C92_modifier_after_failure_refuted : exists split wbsize ops root w, closed w /\ has_children w root /\ stored w root = true /\
  exists n s, mod_run split wbsize [MTruncate 9; MGetNode] (mod_history split wbsize ops (NewDagModifier root, w)) =
      Some ([(MTruncate 9, BDone, snd s); (MGetNode, BNode n, snd s)], s) /\
    stored (snd s) n = true /\ (exists l, In l (node_links n) /\ stored (snd s) (lto l) = false) /\ ~ closed (snd s).
Proof. exact modifier_closed_false. Qed.
Print Assumptions C92_modifier_after_failure_refuted.

(** C93: operations on a sharded directory, new or loaded, never leave a block in the store
    without its children, if the client has stored what is below the nodes it gives. *)
Theorem C93_shard_closed : forall hash W b s w ops, closed w ->
  new_dir W b = Ok s \/ (exists n, NewHamtFromDag n = Ok s /\ has_children w n) ->
  (forall a op c, ops = a ++ op :: c -> given_shard (snd (snd (hrun hash a (s, w)))) op) ->
  closed_throughout w (snd (snd (hrun hash ops (s, w)))).
Proof. exact hamt_closed. Qed.
Print Assumptions C93_shard_closed.
(** The node that Node returns is in the store with everything below it. *)
Theorem C93_shard_complete : forall hash W b s w ops n w', closed w ->
  new_dir W b = Ok s \/ (exists n, NewHamtFromDag n = Ok s /\ has_children w n) ->
  (forall a op c, ops = a ++ op :: c -> given_shard (snd (snd (hrun hash a (s, w)))) op) ->
  Node (fst (snd (hrun hash ops (s, w)))) (snd (snd (hrun hash ops (s, w)))) = (Ok n, w') ->
  forall m, reach n m -> stored w' m = true.
Proof. exact hamt_complete. Qed.
Print Assumptions C93_shard_complete.
Definition shard_ops : list hop :=
  [HSet na (rawn x01); HSwap nb (rawn x02); HSetLink nlong (lnk x01); HNode; HReload; HTake na; HSet [x62] ten_base; HReload; HEach].
Example C93_shard_case : closed (snd ten_import) /\ new_dir 256 None = Ok dir256 /\
  (forall a op c, shard_ops = a ++ op :: c -> given_shard (snd (snd (hrun hash8 a (dir256, snd ten_import)))) op) /\
  exists n w', Node (fst (snd (hrun hash8 shard_ops (dir256, snd ten_import)))) (snd (snd (hrun hash8 shard_ops (dir256, snd ten_import)))) = (Ok n, w') /\
    length (blocks n) = 19%nat.
Proof.
  split; [apply fresh_closed; [intros n; reflexivity|vm_compute; reflexivity]|].
  split; [vm_compute; reflexivity|]. split.
  { apply all_given_ok. cbn [all_given shard_ops given_shard]. repeat (split; [intros l []|]). split; [vm_compute; reflexivity|]. do 3 (split; [exact I|]). split; [|auto].
    apply children_check. vm_compute. reflexivity. }
  eexists _, _. split; [vm_compute; reflexivity|vm_compute; reflexivity].
Qed.

(** Directories that change between the forms: if the client has stored the nodes it gives. *)
Theorem C93_directory_closed_partial : forall hash width mayc d w cs h st, closed w ->
  (exists b, NewDirectory b = Ok d) \/ (exists n, NewDirectoryFromNode n = Ok d /\ has_children w n) ->
  drun hash width mayc (d, w) cs h st -> Forall (fun o => given_dir (q_w o) (q_op o)) h -> closed_throughout w (snd st).
Proof. exact directory_closed. Qed.
Print Assumptions C93_directory_closed_partial.
Definition dir_ops : list (Z * dop) :=
  [(60, DStore ra); (60, DAdd na ra); (60, DReload); (60, DStore rb); (60, DAdd nb rb); (60, DReload); (60, DAdd nlong ra); (60, DReload)].
Example C93_directory_case : closed astore /\ NewDirectory None = Ok dnew /\ drun hash8 256 false (dnew, astore) dir_ops (fst (dpath astore dir_ops)) (dstate astore dir_ops) /\
  Forall (fun o => given_dir (q_w o) (q_op o)) (fst (dpath astore dir_ops)) /\ length (w_added (snd (dstate astore dir_ops))) = 15%nat.
Proof.
  split; [exact astore_closed|]. split; [exact dnew_ok|]. split; [apply dpath_run; vm_compute; reflexivity|]. split; [|vm_compute; reflexivity].
  apply given_check. vm_compute. reflexivity.
Qed.
(** AddChild of a sharded directory stores the node given, but that of a basic directory
    does not: the stored directory lacks its entry. *)
Theorem C93_directory_closed_refuted : exists hash width mayc d w cs h st, closed w /\ NewDirectory None = Ok d /\ drun hash width mayc (d, w) cs h st /\
  Forall (fun o => match q_op o with DAdd _ n | DStore n => has_children (q_w o) n | _ => True end) h /\ map q_res h = [Ok VUnit; Ok VUnit] /\ ~ closed (snd st).
Proof. exact directory_closed_false. Qed.
Print Assumptions C93_directory_closed_refuted.
