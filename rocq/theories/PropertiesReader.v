(** Properties C16-C20, C53: the DAG reader; and C06, C12 read back. *)
From Verif Require Import Base Pb FSNode Dag Builder Importer SpecFile Reader SpecReader ReaderRun ReaderProofs ReaderProofs2 ReaderWitness.

(** C16: on any DAG with readable leaves, whatever sizes its nodes record, every
    sequence of reads and copies is the one of a file with the bytes of the leaves. *)
Theorem C16_reads : forall w0 w root r content ops,
  NewDagReader w0 root = Ok r -> tree_bytes (r_root r) content ->
  below_available w (r_root r) -> Forall no_seek ops ->
  exists t r' pos', reader_run (map (fun op => (w, op)) ops) r = Some (t, r') /\
    map fst t = ops /\ file_run content 0 t pos'.
Proof. exact open_reads. Qed.
Print Assumptions C16_reads.

Example C16_case : exists r, NewDagReader full abcde_nosizes = Ok r /\
  tree_bytes (r_root r) [x61; x62; x63; x64; x65] /\ below_available full (r_root r) /\
  option_map fst (reader_run [(full, OpRead 2); (full, OpRead 2); (full, OpRead 2)] r) =
    Some [(OpRead 2, ([x61; x62], 2, None)); (OpRead 2, ([x63; x64], 2, None)); (OpRead 2, ([x65], 1, Some EEOF))].
Proof.
  eexists. split; [vm_compute; reflexivity|]. split; [exact nosizes_tree|]. split; [apply full_below|]. vm_compute. reflexivity.
Qed.

(** C16 with a store in which blocks may be missing, differently at each call:
    nothing but bytes of the file at the current position is ever delivered, and a
    call that fails moves exactly over what it delivered. *)
Theorem C16_reads_with_missing_blocks : forall w0 root r content ops,
  NewDagReader w0 root = Ok r -> tree_bytes (r_root r) content ->
  Forall (fun x => no_seek (snd x)) ops ->
  exists t r' pos', reader_run ops r = Some (t, r') /\ map fst t = map snd ops /\ faulty_run content 0 t pos'.
Proof. exact open_reads_faulty. Qed.
Print Assumptions C16_reads_with_missing_blocks.

Example C16_missing_case : exists r, NewDagReader full abcde = Ok r /\ tree_bytes (r_root r) [x61; x62; x63; x64; x65] /\
  option_map fst (reader_run [(missing_de, OpRead 4); (full, OpRead 4)] r) =
    Some [(OpRead 4, ([x61; x62; x63], 3, Some EFetch)); (OpRead 4, ([x64; x65], 2, Some EEOF))].
Proof. eexists. split; [vm_compute; reflexivity|]. split; [exact abcde_tree|]. vm_compute. reflexivity. Qed.

(** C17: a file with exact sizes behaves as a byte array with a cursor for every
    sequence of reads, copies and seeks with any arguments. *)
Theorem C17_file : forall w root content ops,
  file_content root content -> zlen content < 9223372036854775808 ->
  below_available w root -> Forall op_ok ops ->
  exists r t r' pos', NewDagReader w root = Ok r /\ Size r = zlen content /\
    reader_run (map (fun op => (w, op)) ops) r = Some (t, r') /\ map fst t = ops /\ file_run content 0 t pos'.
Proof. exact open_file. Qed.
Print Assumptions C17_file.

Example C17_case : file_content abcde [x61; x62; x63; x64; x65] /\ below_available full abcde /\
  exists r, NewDagReader full abcde = Ok r /\
  option_map fst (reader_run (map (fun op => (full, op)) [OpRead 1; OpSeek 3 1; OpRead 9; OpSeek (-4) 2; OpRead 2; OpSeek (-9) 0; OpCopy]) r) =
    Some [(OpRead 1, ([x61], 1, None)); (OpSeek 3 1, ([], 4, None)); (OpRead 9, ([x65], 1, Some EEOF));
          (OpSeek (-4) 2, ([], 1, None)); (OpRead 2, ([x62; x63], 2, None)); (OpSeek (-9) 0, ([], 3, Some EInvalidOffset));
          (OpCopy, ([x64; x65], 2, None))].
Proof.
  split; [exact abcde_content|]. split; [apply full_below|]. eexists. split; [vm_compute; reflexivity|]. vm_compute. reflexivity.
Qed.

(** C18 is false: after a failed Seek the reader claims to be at the start, so that
    seeking there does nothing, while the walker is somewhere inside. Here the block
    of a readable position is not returned. *)
Theorem C18_failed_seek_refuted : exists w root content r e r1 r2 n,
  file_content root content /\ NewDagReader w root = Ok r /\
  Seek w 4 0 r = (n, Err e, r1) /\ Seek w 0 0 r1 = (0, Ok tt, r2) /\
  fst (CtxReadFull w 3 r) = (read_at content 0 3, Ok tt) /\
  fst (CtxReadFull w 3 r2) = ([], Err EFetch).
Proof. exact failed_seek_refuted. Qed.
Print Assumptions C18_failed_seek_refuted.

(** Here wrong bytes are returned without an error. *)
Theorem C18_failed_seek_data_refuted : exists w root content r e r1 r2 n b,
  tree_bytes root content /\ below_available w root /\ NewDagReader w root = Ok r /\
  Seek w 4 0 r = (n, Err e, r1) /\ Seek w 0 0 r1 = (0, Ok tt, r2) /\
  fst (CtxReadFull w 2 r2) = (b, Ok tt) /\ b <> read_at content 0 2.
Proof. exact failed_seek_data_refuted. Qed.
Print Assumptions C18_failed_seek_data_refuted.

(** What holds: from any state of the reader, a successful Seek to a position other
    than the one it reports makes the following calls return the bytes there.
    (Missing: Seek to the reported position, which is 0 after a failed Seek.) *)
Theorem C18_seek_recovers_partial : forall w p r content n r',
  file_content (r_root r) content -> zlen content < 9223372036854775808 -> p <> r_off r ->
  Seek w p 0 r = (n, Ok tt, r') ->
  n = p /\ forall ops, Forall (fun x => no_seek (snd x)) ops ->
    exists t r2 pos', reader_run ops r' = Some (t, r2) /\ map fst t = map snd ops /\ faulty_run content p t pos'.
Proof. exact seek_any. Qed.
Print Assumptions C18_seek_recovers_partial.
Theorem C18_seek_succeeds_partial : forall w p r content,
  file_content (r_root r) content -> zlen content < 9223372036854775808 -> 0 <= p -> p <> r_off r ->
  below_available w (r_root r) -> exists r', Seek w p 0 r = (p, Ok tt, r').
Proof. exact seek_any_available. Qed.
Print Assumptions C18_seek_succeeds_partial.

(** A reader left by a failed Seek, and a second Seek that succeeds. *)
Example C18_case : exists r r1 n e r2, NewDagReader full abcde = Ok r /\ Seek missing_de 4 0 r = (n, Err e, r1) /\
  file_content (r_root r1) [x61; x62; x63; x64; x65] /\ 1 <> r_off r1 /\ Seek full 1 0 r1 = (1, Ok tt, r2).
Proof.
  eexists _, _, _, _, _. split; [vm_compute; reflexivity|]. split; [vm_compute; reflexivity|]. split; [exact abcde_content|].
  split; [vm_compute; discriminate|]. vm_compute. reflexivity.
Qed.

(** C19: copying with an arbitrary destination after any reads and copies: the
    destination receives the bytes at the current position, all of the rest if the
    call succeeds, and later reads go on behind what it received. (A destination
    accepting everything is part of C16 and C17. Missing: the position reported
    after a failure.) *)
Theorem C19_write_fault_partial : forall w0 w root r content wr ops,
  NewDagReader w0 root = Ok r -> tree_bytes (r_root r) content ->
  forall before, Forall (fun x => no_seek (snd x)) before -> forall t0 r1, reader_run before r = Some (t0, r1) ->
  exists pos, faulty_run content 0 t0 pos /\
  let '(m, e, r2) := WriteTo w wr r1 in
  m = read_at content pos (length m) /\
  ((exists u, e = Ok u) -> m = skipn (Z.to_nat pos) content) /\
  (forall x, e = Err x -> x = EFetch \/ x = EWrite) /\ e <> Panic /\ e <> Fuel /\
  (Forall (fun x => no_seek (snd x)) ops ->
   exists t r3 pos', reader_run ops r2 = Some (t, r3) /\ map fst t = map snd ops /\ faulty_run content (pos + zlen m) t pos').
Proof. exact write_fault. Qed.
Print Assumptions C19_write_fault_partial.

Example C19_case : exists r t0 r1 r2, NewDagReader full abcde = Ok r /\ reader_run [(full, OpRead 1)] r = Some (t0, r1) /\
  WriteTo full two_bytes r1 = ([x62; x63], Err EWrite, r2) /\
  option_map fst (reader_run [(full, OpRead 2)] r2) = Some [(OpRead 2, ([x64; x65], 2, None))].
Proof.
  eexists _, _, _, _. split; [vm_compute; reflexivity|]. split; [vm_compute; reflexivity|]. split; [vm_compute; reflexivity|]. vm_compute. reflexivity.
Qed.

(** The reported position is wrong after a failed copy, so that Seek to the start
    is taken for a no-op and the wrong bytes are read. *)
Theorem C19_position_refuted : exists w root content r wr m r1 r2 b,
  file_content root content /\ below_available w root /\ NewDagReader w root = Ok r /\
  WriteTo w wr r = (m, Err EWrite, r1) /\ zlen m = 2 /\
  Seek w 0 1 r1 = (0, Ok tt, r1) /\ Seek w 0 0 r1 = (0, Ok tt, r2) /\
  fst (CtxReadFull w 3 r2) = (b, Ok tt) /\ b = read_at content 2 3 /\ b <> read_at content 0 3.
Proof. exact write_position_refuted. Qed.
Print Assumptions C19_position_refuted.

(** C20: the outcome of NewDagReader on every node. *)
Theorem C20_open : forall w n,
  (forall m s, opens w n (Ok (m, s)) <-> exists r, NewDagReader w n = Ok r /\ r_root r = m /\ Size r = s /\ r_off r = 0) /\
  (forall e, opens w n (Err e) <-> NewDagReader w n = Err e) /\
  NewDagReader w n <> Panic /\ NewDagReader w n <> Fuel.
Proof. exact open_exact. Qed.
Print Assumptions C20_open.

Example C20_case : opens full meta_abcde (Ok (abcde, 5)) /\ opens full a_dir (Err EIsDir) /\
  (exists e, opens full bad_leaf (Err e)) /\ opens missing_de (NProto pbp [x08; x03] [nolink leaf_de]) (Err EFetch).
Proof.
  split; [|split; [|split]].
  - eapply op_meta with (fs := mkData (Some 3) None None [] None None []); [vm_compute; reflexivity|reflexivity|reflexivity|reflexivity|].
    apply (op_file full pbp (node_bytes abcde) (node_links abcde) (mkData (Some 2) None (Some 5) [3; 2] None None [])); [vm_compute; reflexivity|now left].
  - eapply op_dir; [vm_compute; reflexivity|now left].
  - eexists. eapply op_undecodable. vm_compute. reflexivity.
  - eapply op_meta_missing with (fs := mkData (Some 3) None None [] None None []); [vm_compute; reflexivity|reflexivity|vm_compute; discriminate].
Qed.

(** C53: a failed read makes later reads skip data; false for undecodable leaves
    (for missing blocks it cannot happen, see C16_reads_with_missing_blocks). *)
Theorem C53_skip_refuted : exists w root r e r1 r2 b,
  below_available w root /\ NewDagReader w root = Ok r /\ Size r = 5 /\
  CtxReadFull w 3 r = ([], Err e, r1) /\ CtxReadFull w 2 r1 = (b, Ok tt, r2) /\
  b = [x64; x65] /\ Seek w 0 1 r2 = (2, Ok tt, r2).
Proof. exact skip_refuted. Qed.
Print Assumptions C53_skip_refuted.

(** C06, C12: what was imported is read back by any sequence of calls. *)
Theorem C06_balanced_read_back : forall fuel dbp fi spl w root w' ops,
  balanced_import fuel dbp fi spl w = (Ok root, w') -> (forall m, w_getok w' m = true) -> Forall op_ok ops ->
  exists chunks, spl = map EvData chunks /\
   (zlen (concat chunks) < 9223372036854775808 ->
    exists r t r' pos', NewDagReader w' root = Ok r /\ Size r = zlen (concat chunks) /\
    reader_run (map (fun op => (w', op)) ops) r = Some (t, r') /\ map fst t = ops /\ file_run (concat chunks) 0 t pos').
Proof. exact balanced_read. Qed.
Print Assumptions C06_balanced_read_back.
Theorem C12_trickle_read_back : forall fuel dbp fi spl w root w' ops,
  1 <= pr_maxlinks dbp -> (length spl < fuel)%nat ->
  trickle_import fuel dbp fi spl w = (Ok root, w') -> (forall m, w_getok w' m = true) -> Forall op_ok ops ->
  exists chunks, spl = map EvData chunks /\
   (zlen (concat chunks) < 9223372036854775808 ->
    exists r t r' pos', NewDagReader w' root = Ok r /\ Size r = zlen (concat chunks) /\
    reader_run (map (fun op => (w', op)) ops) r = Some (t, r') /\ map fst t = ops /\ file_run (concat chunks) 0 t pos').
Proof. exact trickle_read. Qed.
Print Assumptions C12_trickle_read_back.

Example C12_read_case : exists root w' r,
  trickle_import 9 (mkParams 1 true None false) true (map EvData [[x61; x62]; [x63]; [x64; x65]]) (mkWorld (fun _ => false) [] 0 (fun _ => true) (fun _ => true)) = (Ok root, w') /\
  NewDagReader w' root = Ok r /\ fst (WriteTo w' good_writer r) = ([x61; x62; x63; x64; x65], Ok tt).
Proof. eexists _, _, _. split; [vm_compute; reflexivity|]. split; [vm_compute; reflexivity|]. vm_compute. reflexivity. Qed.
