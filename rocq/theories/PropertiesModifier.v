(** Properties C21-C28, C45, C55, C56: the DAG modifier. *)
From Verif Require Import Base Pb FSNode Dag Builder Importer Reader Modifier SpecFile SpecAppend SpecReader SpecModifier
  AppendRun ReaderProofs2 ReaderRun ReaderWitness ModifierRun ModifierFacts.

(** C21: writing inside a file and getting the node. [write_back] is New, WriteAt,
    GetNode. The content is the old one with exactly the range replaced; the tree
    keeps its shape, names and recorded sizes; all blocks are in the store; link
    sizes stay right if the leaves are encoded the way this library does it. *)
Theorem C21_overwrite : forall split wbsize b off n c w n' s',
  chunker_ok split -> file_content n c -> zlen c < 9223372036854775808 -> 0 <= off -> off + zlen b <= zlen c ->
  write_back split wbsize b off n w = (Ok n', s') ->
  file_content n' (put c off b) /\ zlen (put c off b) = zlen c /\ same_shape n n' /\
  (available w n -> serves w -> available (snd s') n') /\ (tsizes_exact n -> canonical_leaves n -> tsizes_exact n').
Proof. exact overwrite_exact. Qed.
Print Assumptions C21_overwrite.
Theorem C21_only_the_range : forall c off b i, 0 <= off -> off + zlen b <= zlen c ->
  ~ (off <= Z.of_nat i < off + zlen b) -> nth_error (put c off b) i = nth_error c i.
Proof. exact put_outside. Qed.
Print Assumptions C21_only_the_range.
Theorem C21_the_range : forall c off b i, 0 <= off -> (i < length b)%nat ->
  nth_error (put c off b) (Z.to_nat off + i) = nth_error b i.
Proof. exact put_inside. Qed.
Print Assumptions C21_the_range.
(** It fails only if the store does, and never panics. *)
Theorem C21_overwrite_total : forall split wbsize b off n c w,
  chunker_ok split -> file_content n c -> zlen c < 9223372036854775808 -> 0 <= off -> off + zlen b <= zlen c ->
  (exists n' s', write_back split wbsize b off n w = (Ok n', s')) \/
  (~ good_store w n /\ exists e s', write_back split wbsize b off n w = (Err e, s')).
Proof. exact overwrite_total. Qed.
Print Assumptions C21_overwrite_total.

Example C21_case : chunker_ok bytewise /\ file_content abcde [x61; x62; x63; x64; x65] /\ good_store full abcde /\
  put [x61; x62; x63; x64; x65] 2 [x58; x59] = [x61; x62; x58; x59; x65] /\
  got (write_back bytewise wb [x58; x59] 2 abcde full) = Some [x61; x62; x58; x59; x65].
Proof. split; [exact bytewise_ok|]. split; [exact abcde_content|]. split; [apply full_good|]. split; vm_compute; reflexivity. Qed.

(** C22: Truncate and GetNode ([truncate_to]). Cutting works on every file, growing
    on those the modifier can extend. *)
Theorem C22_truncate : forall split size n c w n' s',
  file_content n c -> zlen c < 9223372036854775808 -> 0 <= size < 9223372036854775808 -> (zlen c < size -> growable K n) ->
  truncate_to split size n w = (Ok n', s') ->
  file_content n' (resize c size) /\ recorded_size n' size /\ (available w n -> serves w -> available (snd s') n') /\
  (tsizes_exact n -> tsizes_exact n') /\ node_prefix n' = node_prefix n.
Proof. exact truncate_exact. Qed.
Print Assumptions C22_truncate.
Theorem C22_resize_is_prefix : forall c size, 0 <= size <= zlen c -> resize c size = firstn (Z.to_nat size) c.
Proof. exact resize_prefix. Qed.
Print Assumptions C22_resize_is_prefix.
Theorem C22_truncate_total : forall split size n c w,
  file_content n c -> zlen c < 9223372036854775808 -> 0 <= size < 9223372036854775808 -> (zlen c < size -> growable K n) ->
  (exists n' s', truncate_to split size n w = (Ok n', s')) \/
  (~ good_store w n /\ exists e s', truncate_to split size n w = (Err e, s')).
Proof. exact truncate_total. Qed.
Print Assumptions C22_truncate_total.

Example C22_case : file_content abcde [x61; x62; x63; x64; x65] /\ growable K abcde /\ good_store full abcde /\
  got (truncate_to bytewise 4 abcde full) = Some [x61; x62; x63; x64] /\
  got (truncate_to bytewise 2 abcde full) = Some [x61; x62] /\
  got (truncate_to bytewise 7 abcde full) = Some [x61; x62; x63; x64; x65; x00; x00].
Proof.
  split; [exact abcde_content|]. split; [exact abcde_growable|]. split; [apply full_good|]. split; [vm_compute; reflexivity|]. split; vm_compute; reflexivity.
Qed.

(** C23: every history of allowed calls (see [m_allowed]) on a file the modifier can
    extend is one of a file held in memory: answers, contents of all nodes returned,
    and their blocks are in the store. Missing for the full claim: the calls not
    allowed and the other files, for both see the refutations. *)
Theorem C23_modifier_is_file_partial : forall split wbsize n c w ops,
  chunker_ok split -> file_content n c -> growable K n -> available w n -> can_add w -> serves w ->
  zlen c < 9223372036854775808 -> all_allowed (mkF c 0 false NoReader true) ops ->
  exists h s, mod_run split wbsize ops (NewDagModifier n, w) = Some (h, s) /\
    map (fun x => fst (fst x)) h = ops /\ like_file (mkF c 0 false NoReader true) h.
Proof. exact modifier_is_file. Qed.
Print Assumptions C23_modifier_is_file_partial.
(** Files that can be extended: those with trickle shape for the default limit, and
    those with few links and no data in the root. *)
Theorem C23_trickle_growable : forall raw e n, loose_file K 4 raw e (-1) n -> growable K n.
Proof. exact trickle_growable. Qed.
Print Assumptions C23_trickle_growable.
Theorem C23_few_links_growable : forall p b ls f,
  FSNodeFromBytes b = Ok f -> getType f = TFile -> getData f = [] -> zlen ls <= K -> growable K (NProto p b ls).
Proof. exact few_links_growable. Qed.
Print Assumptions C23_few_links_growable.

Definition session : list mop :=
  [MSeek 2 0; MWrite [x58]; MWrite [x59]; MSize; MSeek 1 1; MWrite [x5a]; MSize; MGetNode; MSeek 0 0; MRead 9; MTruncate 6; MSync;
   MWriteAt [x41; x42] 0; MSeek 9 0; MWrite [x43]; MGetNode].
Example C23_case : file_content abcde [x61; x62; x63; x64; x65] /\ growable K abcde /\ available full abcde /\
  all_allowed (mkF [x61; x62; x63; x64; x65] 0 false NoReader true) session /\
  last_node (mod_run bytewise wb session (NewDagModifier abcde, full)) = Some [x41; x42; x58; x59; x65; x5a; x00; x00; x00; x43].
Proof.
  split; [exact abcde_content|]. split; [exact abcde_growable|]. split; [apply full_available|]. split.
  - apply all_allowedb_sound. vm_compute. reflexivity.
  - vm_compute. reflexivity.
Qed.
(** Also with Truncate, and Seek past the end, between reads. *)
Definition reading : list mop :=
  [MRead 2; MTruncate 4; MSeek 0 0; MRead 9; MSeek 7 0; MSeek 3 0; MRead 2; MTruncate 2; MSeek 1 0; MRead 9; MGetNode].
Example C23_reading_case : all_allowed (mkF [x61; x62; x63; x64; x65] 0 false NoReader true) reading /\
  option_map (fun x => map (fun y => snd (fst y)) (firstn 10 (fst x))) (mod_run bytewise wb reading (NewDagModifier abcde, full)) =
  Some [BData [x61; x62] None; BDone; BInt 0; BData [x61; x62; x63; x64] (Some EEOF); BInt 7; BInt 3; BData [x64; x00] None;
        BDone; BInt 1; BData [x62] (Some EEOF)].
Proof.
  split.
  - apply all_allowedb_sound. vm_compute. reflexivity.
  - vm_compute. reflexivity.
Qed.

(** C23 is false for a file of one block with data: growing it drops the old data. *)
Theorem C23_grow_inline_refuted : exists root content h s n w,
  file_content root content /\ good_store full root /\ content = [x61; x62; x63] /\
  mod_run bytewise wb [MSeek 3 0; MWrite [x64]; MGetNode] (NewDagModifier root, full) = Some (h ++ [(MGetNode, BNode n, w)], s) /\
  tree_bytes n [x64] /\ recorded_size n 4.
Proof. exact grow_inline_refuted. Qed.
Print Assumptions C23_grow_inline_refuted.
(** If the block is raw, growing fails in a working store and the modifier loses the file. *)
Theorem C23_grow_raw_refuted : exists root content s1 s2 s3,
  file_content root content /\ good_store full root /\
  mSeek bytewise 3 0 (NewDagModifier root, full) = (Ok 3, s1) /\ mWrite bytewise wb [x64] s1 = (Ok 1, s2) /\
  Sync bytewise s2 = (Err ENotProtobuf, s3) /\ mGetNode bytewise s3 = (Err EModifyKind, s3) /\ m_node (fst s3) = None.
Proof. exact grow_raw_refuted. Qed.
Print Assumptions C23_grow_raw_refuted.

(** C24: after any allowed history, WriteAt not directly following a write (Sync or
    anything else in between) writes exactly at the offset, unless that is where
    the position seems to be after an earlier WriteAt or Read (see [m_allowed]). *)
Theorem C24_writeat_partial : forall split wbsize n c w ops b off,
  chunker_ok split -> file_content n c -> growable K n -> available w n -> can_add w -> serves w ->
  zlen c < 9223372036854775808 -> all_allowed (mkF c 0 false NoReader true) (ops ++ [MWriteAt b off; MGetNode]) ->
  exists h s n', mod_run split wbsize (ops ++ [MWriteAt b off; MGetNode]) (NewDagModifier n, w) = Some (h ++ [(MGetNode, BNode n', snd s)], s) /\
    file_content n' (put (f_content (m_after (mkF c 0 false NoReader true) ops)) off b) /\ available (snd s) n'.
Proof. exact writeat_then_node. Qed.
Print Assumptions C24_writeat_partial.
Example C24_case : all_allowed (mkF [x61; x62; x63; x64; x65] 0 false NoReader true) ([MWriteAt [x58; x59] 1; MSync] ++ [MWriteAt [x5a] 0; MGetNode]) /\
  last_node (mod_run bytewise wb ([MWriteAt [x58; x59] 1; MSync] ++ [MWriteAt [x5a] 0; MGetNode]) (NewDagModifier abcde, full)) = Some [x5a; x58; x59; x64; x65].
Proof.
  split; [apply all_allowedb_sound|]; vm_compute; reflexivity.
Qed.
(** C24 is false directly after a write: the data of the second call lands behind that
    of the first, though it was to be written at 2 ([aXZde] expected) or at 1 ([aZYde]). *)
Theorem C24_twice_refuted : exists h s n w,
  mod_run bytewise wb [MWriteAt [x58; x59] 1; MWriteAt [x5a] 2; MGetNode] (NewDagModifier abcde, full) = Some (h ++ [(MGetNode, BNode n, w)], s) /\
  tree_bytes n [x61; x58; x59; x5a; x65].
Proof. exact writeat_twice_refuted. Qed.
Print Assumptions C24_twice_refuted.
Theorem C24_same_place_refuted : exists h s n w,
  mod_run bytewise wb [MWriteAt [x58; x59] 1; MWriteAt [x5a] 1; MGetNode] (NewDagModifier abcde, full) = Some (h ++ [(MGetNode, BNode n, w)], s) /\
  tree_bytes n [x61; x58; x59; x5a; x65].
Proof. exact writeat_same_refuted. Qed.
Print Assumptions C24_same_place_refuted.
(** It is also false after a Sync if the offset is the number of bytes written before. *)
Theorem C24_after_sync_refuted : exists h s n w,
  mod_run bytewise wb [MWriteAt [x58; x59] 1; MSync; MWriteAt [x5a] 2; MGetNode] (NewDagModifier abcde, full) = Some (h ++ [(MGetNode, BNode n, w)], s) /\
  tree_bytes n [x61; x58; x59; x5a; x65].
Proof. exact writeat_sync_refuted. Qed.
Print Assumptions C24_after_sync_refuted.

(** C25 is false: after reading two bytes of "abcde", "X" is written at 0. *)
Theorem C25_write_after_read_refuted : exists h s n w,
  mod_run bytewise wb [MRead 2; MWrite [x58]; MGetNode] (NewDagModifier abcde, full) = Some (h ++ [(MGetNode, BNode n, w)], s) /\
  tree_bytes n [x58; x62; x63; x64; x65].
Proof. exact write_after_read_refuted. Qed.
Print Assumptions C25_write_after_read_refuted.

(** C26 is false: with five bytes, seeking to one byte after the end gives 4; seeking
    to -1 succeeds, and the next write goes to the end. *)
Theorem C26_seek_end_refuted : exists s, mSeek bytewise 1 2 (NewDagModifier abcde, full) = (Ok 4, s).
Proof. exact seek_end_refuted. Qed.
Print Assumptions C26_seek_end_refuted.
Theorem C26_seek_negative_refuted : exists h s n w w0,
  mod_run bytewise wb [MSeek (-1) 0; MWrite [x58]; MGetNode] (NewDagModifier abcde, full) = Some ((MSeek (-1) 0, BInt (-1), w0) :: h ++ [(MGetNode, BNode n, w)], s) /\
  tree_bytes n [x61; x62; x63; x64; x65; x58].
Proof. exact seek_negative_refuted. Qed.
Print Assumptions C26_seek_negative_refuted.

(** C27 is false: one Add fails during Sync; the next Sync succeeds and the write is lost. *)
Theorem C27_failed_sync_refuted : exists s1 s2 s3 s4 n,
  mWrite bytewise wb [x58] (NewDagModifier abcde, fails_once) = (Ok 1, s1) /\
  Sync bytewise s1 = (Err EAdd, s2) /\ Sync bytewise s2 = (Ok tt, s3) /\
  mGetNode bytewise s3 = (Ok n, s4) /\ tree_bytes n [x61; x62; x63; x64; x65].
Proof. exact sync_failed_refuted. Qed.
Print Assumptions C27_failed_sync_refuted.

(** C28 is false without a Seek: reading goes on in the old file after it was cut to one byte. *)
Theorem C28_read_truncated_refuted : exists s1 s2 s3,
  mRead bytewise 1 (NewDagModifier abcde, full) = (Ok ([x61], None), s1) /\ mTruncate bytewise 1 s1 = (Ok tt, s2) /\
  mRead bytewise 2 s2 = (Ok ([x62; x63], None), s3) /\ fst (mSize s3) = Ok 1.
Proof. exact read_truncated_refuted. Qed.
Print Assumptions C28_read_truncated_refuted.

(** C28 holds if Seek to another position comes in between, whatever was read before:
    then exactly the bytes of the truncated file are read. *)
Theorem C28_truncate_seek_read_partial : forall split wbsize n c w ops size off k,
  chunker_ok split -> file_content n c -> growable K n -> available w n -> can_add w -> serves w ->
  zlen c < 9223372036854775808 -> all_allowed (mkF c 0 false NoReader true) ops ->
  0 <= off <= size -> size < 9223372036854775808 -> off <> f_pos (m_after (mkF c 0 false NoReader true) ops) ->
  exists h s eof w', mod_run split wbsize (ops ++ [MTruncate size; MSeek off 0; MRead k]) (NewDagModifier n, w) =
    Some (h ++ [(MRead k, BData (read_at (resize (f_content (m_after (mkF c 0 false NoReader true) ops)) size) off k) eof, w')], s).
Proof. exact truncate_seek_read. Qed.
Print Assumptions C28_truncate_seek_read_partial.
Example C28_case : file_content abcde [x61; x62; x63; x64; x65] /\ growable K abcde /\ available full abcde /\
  all_allowed (mkF [x61; x62; x63; x64; x65] 0 false NoReader true) [MRead 2; MRead 1] /\
  read_at (resize (f_content (m_after (mkF [x61; x62; x63; x64; x65] 0 false NoReader true) [MRead 2; MRead 1])) 4) 2 5 = [x63; x64].
Proof.
  split; [exact abcde_content|]. split; [exact abcde_growable|]. split; [apply full_available|]. split.
  - apply all_allowedb_sound. vm_compute. reflexivity.
  - vm_compute. reflexivity.
Qed.

(** C45: whatever is called with whatever outcome, from whatever state, no block gets
    lost; and a file complete in the store at some time reads back the same for any
    sequence of calls on a reader at any later time. *)
Theorem C45_no_block_lost : forall split wbsize ops s, keeps (snd s) (snd (mod_history split wbsize ops s)).
Proof. exact history_keeps. Qed.
Print Assumptions C45_no_block_lost.
Theorem C45_old_versions : forall split wbsize before after s root content reads,
  let w1 := snd (mod_history split wbsize before s) in
  let w2 := snd (mod_history split wbsize (before ++ after) s) in
  file_content root content -> zlen content < 9223372036854775808 -> available w1 root -> Forall op_ok reads ->
  dserv_get w2 root = Ok root /\
  exists r t r' pos', NewDagReader w2 root = Ok r /\ Size r = zlen content /\
    reader_run (map (fun op => (w2, op)) reads) r = Some (t, r') /\ map fst t = reads /\ file_run content 0 t pos'.
Proof. exact old_version_reads. Qed.
Print Assumptions C45_old_versions.

Definition abcde_world : world := snd (dserv_add abcde None (snd (dserv_add leaf_de None (snd (dserv_add leaf_abc None astore))))).
Example C45_case :
  available (snd (mod_history bytewise wb [MSize] (NewDagModifier abcde, abcde_world))) abcde /\
  (let w2 := snd (mod_history bytewise wb ([MSize] ++ [MTruncate 2; MWrite [x58]; MSync]) (NewDagModifier abcde, abcde_world)) in
   w_has w2 abcde = false /\ length (w_added w2) = 7%nat /\
   match NewDagReader w2 abcde with Ok r => fst (CtxReadFull w2 9 r) | _ => ([], Panic) end = ([x61; x62; x63; x64; x65], Err EEOF)).
Proof.
  split.
  - intros m Hm. change (snd (mod_history bytewise wb [MSize] (NewDagModifier abcde, abcde_world))) with abcde_world.
    inversion Hm as [|? l ? Hl Hr]; subst; [vm_compute; reflexivity|]. cbn in Hl. destruct Hl as [<-|[<-|[]]]; cbn in Hr; inversion Hr as [|? ? ? Hl2]; subst; try (vm_compute; reflexivity); destruct Hl2.
  - split; [vm_compute; reflexivity|]. split; vm_compute; reflexivity.
Qed.

(** C55 is false: truncating to a negative size panics. *)
Theorem C55_truncate_negative_refuted : exists s, mTruncate bytewise (-1) (NewDagModifier abcde, full) = (Panic, s).
Proof. exact truncate_negative_refuted. Qed.
Print Assumptions C55_truncate_negative_refuted.

(** C56: HasChanges. A write that stays in the buffer sets it, a successful Sync or
    GetNode clears it, and while it is false Sync does nothing. *)
Theorem C56_write_sets : forall split wbsize b m w, zlen (match m_buf m with Some x => x | None => [] end) + zlen b <= wbsize ->
  exists m', mWrite split wbsize b (m, w) = (Ok (zlen b), (m', w)) /\ HasChanges m' = true /\ m_node m' = m_node m.
Proof. exact write_dirty. Qed.
Print Assumptions C56_write_sets.
Theorem C56_sync_clears : forall split s u s', Sync split s = (Ok u, s') -> HasChanges (fst s') = false.
Proof. exact sync_clean. Qed.
Print Assumptions C56_sync_clears.
Theorem C56_getnode_clears : forall split s n s', mGetNode split s = (Ok n, s') -> HasChanges (fst s') = false.
Proof. exact getnode_clean. Qed.
Print Assumptions C56_getnode_clears.
Theorem C56_clean_sync : forall split m w, HasChanges m = false -> Sync split (m, w) = (Ok tt, (m, w)).
Proof. exact clean_sync_nothing. Qed.
Print Assumptions C56_clean_sync.
Example C56_case : exists m1 s2, mWrite bytewise wb [x58] (NewDagModifier abcde, full) = (Ok 1, (m1, full)) /\ HasChanges m1 = true /\
  Sync bytewise (m1, full) = (Ok tt, s2) /\ HasChanges (fst s2) = false /\ option_map tree_read (m_node (fst s2)) = Some (Some [x58; x62; x63; x64; x65]).
Proof.
  exists (fst (snd (mWrite bytewise wb [x58] (NewDagModifier abcde, full)))), (snd (Sync bytewise (snd (mWrite bytewise wb [x58] (NewDagModifier abcde, full))))).
  split; [vm_compute; reflexivity|]. split; [vm_compute; reflexivity|]. split; [vm_compute; reflexivity|]. split; vm_compute; reflexivity.
Qed.
