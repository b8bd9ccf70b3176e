(** Properties C23-C26, C55, C76: what the DAG modifier does in every situation. *)
From Verif Require Import Base Dag Builder Importer Reader Modifier SpecFile SpecAppend SpecReader SpecModifier SpecExact
  ReaderRun ReaderWitness ModifierRun ModifierFacts ExactProofs ExactFacts.

(** C23: every history of calls, also those where the modifier is not like an ordinary
    file, follows the small machine of SpecExact.v: answers (errors included), contents
    of all nodes returned, and their blocks are in the store. Missing for the full claim:
    the machine is not an open file; reading with a reader whose file was resized, negative
    positions, and files that cannot grow. *)
Theorem C23_exact_partial : forall split wbsize n c w ops, chunker_ok split -> opened n c w -> all_ok wbsize (x_new c) ops ->
  exists h s, mod_calls split wbsize ops (NewDagModifier n, w) = (h, s) /\ map (fun x => fst (fst x)) h = ops /\ exactly wbsize (x_new c) h.
Proof. exact modifier_exact. Qed.
Print Assumptions C23_exact_partial.
(** Calls that [m_allowed] excludes: writing after reading, WriteAt after writes, seeking
    from the end, a seek that fails. *)
Definition odd : list mop :=
  [MRead 2; MWrite [x58]; MWriteAt [x59; x5a] 1; MWriteAt [x51] 1; MGetNode; MSeek 2 2; MRead 3; MSeek 1 2; MRead 2; MSeek 3 7; MSeek (-3) 2; MTruncate 9; MSeek 0 0; MRead 9].
Example C23_exact_case : opened abcde [x61; x62; x63; x64; x65] full /\ all_ok wb (x_new [x61; x62; x63; x64; x65]) odd /\
  shown (fst (mod_calls bytewise wb odd (NewDagModifier abcde, full))) =
  [inl (Ok (BData [x61; x62] None)); inl (Ok (BInt 1)); inl (Ok (BInt 2)); inl (Ok (BInt 1)); inr (Some [x58; x59; x5a; x51; x65]); inl (Ok (BInt 3));
   inl (Ok (BData [x51; x65] (Some EEOF))); inl (Ok (BInt 4)); inl (Ok (BData [] (Some EEOF))); inl (Err EInvalidWhence); inl (Ok (BInt 8)); inl (Ok BDone); inl (Ok (BInt 0));
   inl (Ok (BData [x58; x59; x5a; x51; x65; x00; x00; x00; x00] None))].
Proof.
  split; [exact opened_abcde|]. split; [apply all_okb_sound; vm_compute; reflexivity|vm_compute; reflexivity].
Qed.
(** What Size reports is the length of the content of the node returned next. *)
Theorem C23_size_of_node : forall split wbsize n c w ops, chunker_ok split -> opened n c w -> all_ok wbsize (x_new c) ops ->
  exists h z n' c' w1 w2, fst (mod_calls split wbsize (ops ++ [MSize; MGetNode]) (NewDagModifier n, w)) = h ++ [(MSize, Ok (BInt z), w1); (MGetNode, Ok (BNode n'), w2)] /\
    file_content n' c' /\ available w2 n' /\ z = zlen c'.
Proof. exact size_is_length. Qed.
Print Assumptions C23_size_of_node.

(** C24, what happens instead: after Sync, data written at an offset other than the
    position goes there, but the next Write follows it there although the position is
    elsewhere; and at an offset equal to the position, data goes behind whatever was written last. *)
Theorem C24_next_write_follows : forall split wbsize n c w ops b1 off b2, chunker_ok split -> opened n c w ->
  all_ok wbsize (x_new c) (ops ++ [MSync; MWriteAt b1 off; MWrite b2]) -> off <> x_pos (x_after wbsize (x_new c) ops) ->
  exists h n1 w1, fst (mod_calls split wbsize (ops ++ [MSync; MWriteAt b1 off; MWrite b2; MGetNode]) (NewDagModifier n, w)) = h ++ [(MGetNode, Ok (BNode n1), w1)] /\
    file_content n1 (put (x_content (x_after wbsize (x_new c) ops)) off (b1 ++ b2)).
Proof. exact writeat_then_write. Qed.
Print Assumptions C24_next_write_follows.
Theorem C24_at_position : forall split wbsize n c w ops b, chunker_ok split -> opened n c w ->
  let s := x_after wbsize (x_new c) ops in
  all_ok wbsize (x_new c) (ops ++ [MSync; MWriteAt b (x_pos s)]) ->
  exists h n1 w1, fst (mod_calls split wbsize (ops ++ [MSync; MWriteAt b (x_pos s); MGetNode]) (NewDagModifier n, w)) = h ++ [(MGetNode, Ok (BNode n1), w1)] /\
    file_content n1 (put (x_content s) (x_end s) b).
Proof. exact writeat_position. Qed.
Print Assumptions C24_at_position.
Example C24_exact_case :
  all_ok wb (x_new [x61; x62; x63; x64; x65]) ([MWriteAt [x58] 3] ++ [MSync; MWriteAt [x59] 2; MWrite [x5a]]) /\
  2 <> x_pos (x_after wb (x_new [x61; x62; x63; x64; x65]) [MWriteAt [x58] 3]) /\
  put (x_content (x_after wb (x_new [x61; x62; x63; x64; x65]) [MWriteAt [x58] 3])) 2 ([x59] ++ [x5a]) = [x61; x62; x59; x5a; x65] /\
  x_pos (x_after wb (x_new [x61; x62; x63; x64; x65]) [MWriteAt [x58] 3]) = 1 /\ x_end (x_after wb (x_new [x61; x62; x63; x64; x65]) [MWriteAt [x58] 3]) = 4 /\
  all_ok wb (x_new [x61; x62; x63; x64; x65]) ([MWriteAt [x58] 3] ++ [MSync; MWriteAt [x59] 1]).
Proof.
  split; [apply all_okb_sound; vm_compute; reflexivity|]. split; [vm_compute; discriminate|]. split; [vm_compute; reflexivity|].
  split; [vm_compute; reflexivity|]. split; [vm_compute; reflexivity|]. apply all_okb_sound; vm_compute; reflexivity.
Qed.

(** C25 is false throughout: however much is read, a Write goes where it would have gone
    without the reading. *)
Theorem C25_reads_do_not_move_writes : forall split wbsize n c w ops ks b, chunker_ok split -> opened n c w ->
  all_ok wbsize (x_new c) (ops ++ map MRead ks ++ [MWrite b]) ->
  exists h1 h2 n1 n2 w1 w2 c', fst (mod_calls split wbsize (ops ++ map MRead ks ++ [MWrite b; MGetNode]) (NewDagModifier n, w)) = h1 ++ [(MGetNode, Ok (BNode n1), w1)] /\
    fst (mod_calls split wbsize (ops ++ [MWrite b; MGetNode]) (NewDagModifier n, w)) = h2 ++ [(MGetNode, Ok (BNode n2), w2)] /\
    file_content n1 c' /\ file_content n2 c'.
Proof. exact reads_do_not_move_writes. Qed.
Print Assumptions C25_reads_do_not_move_writes.
Example C25_exact_case : all_ok wb (x_new [x61; x62; x63; x64; x65]) ([MSeek 1 0] ++ map MRead [2%nat; 1%nat] ++ [MWrite [x58]]) /\
  shown (fst (mod_calls bytewise wb ([MSeek 1 0] ++ map MRead [2%nat; 1%nat] ++ [MWrite [x58]; MGetNode]) (NewDagModifier abcde, full))) =
  [inl (Ok (BInt 1)); inl (Ok (BData [x62; x63] None)); inl (Ok (BData [x64] None)); inl (Ok (BInt 1)); inr (Some [x61; x58; x63; x64; x65])].
Proof. split; [apply all_okb_sound; vm_compute; reflexivity|vm_compute; reflexivity]. Qed.

(** C26 is false throughout: whenever Seek from the end succeeds it goes to the size
    minus the offset; and it succeeds if nothing was read. *)
Theorem C26_seek_end_exact : forall split wbsize n c w ops o, chunker_ok split -> opened n c w -> all_ok wbsize (x_new c) (ops ++ [MSize; MSeek o 2]) ->
  exists h z a w1 w2, fst (mod_calls split wbsize (ops ++ [MSize; MSeek o 2]) (NewDagModifier n, w)) = h ++ [(MSize, Ok (BInt z), w1); (MSeek o 2, a, w2)] /\
    (a = Ok (BInt (z - o)) \/ a = Err EInvalidOffset) /\ (Forall (fun op => match op with MRead _ => False | _ => True end) ops -> a = Ok (BInt (z - o))).
Proof. exact seek_end_exact. Qed.
Print Assumptions C26_seek_end_exact.
Example C26_exact_case : all_ok wb (x_new [x61; x62; x63; x64; x65]) ([MWrite [x58]; MTruncate 7] ++ [MSize; MSeek (-2) 2]) /\
  shown (fst (mod_calls bytewise wb ([MWrite [x58]; MTruncate 7] ++ [MSize; MSeek (-2) 2; MSize]) (NewDagModifier abcde, full))) =
  [inl (Ok (BInt 1)); inl (Ok BDone); inl (Ok (BInt 7)); inl (Ok (BInt 9)); inl (Ok (BInt 9))] /\
  shown (fst (mod_calls bytewise wb [MRead 1; MSeek (-9) 2; MSize] (NewDagModifier abcde, full))) = [inl (Ok (BData [x61] None)); inl (Err EInvalidOffset); inl (Ok (BInt 14))].
Proof. split; [apply all_okb_sound; vm_compute; reflexivity|]. split; vm_compute; reflexivity. Qed.

(** C55 is false throughout: after any history, truncating to a negative size panics. *)
Theorem C55_always_panics : forall split wbsize n c w ops size, chunker_ok split -> opened n c w -> all_ok wbsize (x_new c) ops ->
  -9223372036854775808 <= size < 0 -> fst (mod_call split wbsize (MTruncate size) (snd (mod_calls split wbsize ops (NewDagModifier n, w)))) = Panic.
Proof. exact negative_panics. Qed.
Print Assumptions C55_always_panics.
Example C55_exact_case : all_ok wb (x_new [x61; x62; x63; x64; x65]) [MTruncate 0; MWrite [x58]; MRead 1] /\
  fst (mod_call bytewise wb (MTruncate (-3)) (snd (mod_calls bytewise wb [MTruncate 0; MWrite [x58]; MRead 1] (NewDagModifier abcde, full)))) = Panic.
Proof. split; [apply all_okb_sound; vm_compute; reflexivity|vm_compute; reflexivity]. Qed.

(** C76: without WriteAt it cannot be told when data is written back: calls of Sync may be
    put anywhere, and the size of the buffer, the chunker and the store do not matter for
    any answer. Missing for the full claim: WriteAt, for which it is false. *)
Theorem C76_sync_invisible_partial : forall split split' wbsize wbsize' n c w w' ops ops',
  chunker_ok split -> chunker_ok split' -> opened n c w -> opened n c w' -> all_ok wbsize (x_new c) ops ->
  Forall no_writeat ops -> nosync ops = nosync ops' ->
  Forall2 same_answer (observed (fst (mod_calls split wbsize ops (NewDagModifier n, w)))) (observed (fst (mod_calls split' wbsize' ops' (NewDagModifier n, w')))).
Proof. exact sync_invisible. Qed.
Print Assumptions C76_sync_invisible_partial.
Example C76_case : let ops := [MSeek 4 0; MWrite [x58]; MWrite [x59; x5a]; MSize; MSeek 1 1; MGetNode; MRead 4] in
  let ops' := [MSync; MSeek 4 0; MWrite [x58]; MSync; MWrite [x59; x5a]; MSize; MSync; MSync; MSeek 1 1; MGetNode; MRead 4] in
  all_ok wb (x_new [x61; x62; x63; x64; x65]) ops /\ Forall no_writeat ops /\ nosync ops = nosync ops' /\
  map snd (observed (fst (mod_calls bytewise 0 ops' (NewDagModifier abcde, full)))) <> [] /\
  shown (fst (mod_calls bytewise wb ops (NewDagModifier abcde, full))) =
  [inl (Ok (BInt 4)); inl (Ok (BInt 1)); inl (Ok (BInt 2)); inl (Ok (BInt 7)); inl (Ok (BInt 8)); inr (Some [x61; x62; x63; x64; x58; x59; x5a; x00]); inl (Ok (BData [] (Some EEOF)))].
Proof.
  cbv zeta. split; [apply all_okb_sound; vm_compute; reflexivity|]. split; [repeat constructor|]. split; [reflexivity|]. split; [vm_compute; discriminate|vm_compute; reflexivity].
Qed.
(** With WriteAt it is false: the same calls with and without a Sync in between. *)
Theorem C76_writeat_refuted : exists h h' s s' n n' w w',
  mod_calls bytewise wb [MWriteAt [x58; x59] 1; MWriteAt [x5a] 1; MGetNode] (NewDagModifier abcde, full) = (h ++ [(MGetNode, Ok (BNode n), w)], s) /\
  mod_calls bytewise wb [MWriteAt [x58; x59] 1; MSync; MWriteAt [x5a] 1; MGetNode] (NewDagModifier abcde, full) = (h' ++ [(MGetNode, Ok (BNode n'), w')], s') /\
  tree_bytes n [x61; x58; x59; x5a; x65] /\ tree_bytes n' [x61; x5a; x59; x64; x65].
Proof. exact sync_visible_refuted. Qed.
Print Assumptions C76_writeat_refuted.
