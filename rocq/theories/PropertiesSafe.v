(** Property C101. *)
From Verif Require Import Base Pb FSNode Dag Builder Importer Reader SpecReader ReaderRun SpecSafe ReaderSafe Modifier SpecModifier ExactProofs AppendRun SafeWitness.

(** C101: opened on any node at all, with whatever below it, missing blocks that change from
    call to call, and any arguments, a reader neither panics nor loops and keeps the
    contract of io.Reader and io.Seeker. (Missing for the full claim: writers, for which it
    is false.) *)
Theorem C101_reader_partial : forall w0 root r ops, NewDagReader w0 root = Ok r ->
  exists t r', reader_run ops r = Some (t, r') /\ map fst t = map snd ops /\ Forall (fun x => contract (fst x) (snd x)) t.
Proof. exact any_safe. Qed.
Print Assumptions C101_reader_partial.

(** After the end of the file has been reported, every further read reports it. *)
Theorem C101_eof_stays : forall w0 root r ops t r1 w k m z r2, NewDagReader w0 root = Ok r -> reader_run ops r = Some (t, r1) ->
  reader_step w (OpRead k) r1 = Some ((m, z, Some EEOF), r2) ->
  forall ks, reader_run (map (fun x => (fst x, OpRead (snd x))) ks) r2 = Some (map (fun x => (OpRead (snd x), ([], 0, Some EEOF))) ks, r2).
Proof. exact eof_stays. Qed.
Print Assumptions C101_eof_stays.

(** A file with a directory and an undecodable block below it, a block size too many, and a
    size that is wrong. *)
Definition wreck : node := NProto v0prefix [x08; x02; x18; x63; x20; x02; x20; x05; x20; x01]
  [make_link [] (NRaw rawprefix [x61; x62]); make_link [] (NProto v0prefix [x08; x01] []); make_link [] (NProto v0prefix [xff] [])].
Example C101_case : exists r, NewDagReader everything wreck = Ok r /\
  option_map fst (reader_run [(everything, OpRead 1); (astore, OpRead 4); (everything, OpRead 4); (everything, OpSeek 7 0); (everything, OpRead 1); (everything, OpSeek 20 0); (everything, OpRead 1)] r) =
  Some [(OpRead 1, ([x61], 1, None)); (OpRead 4, ([x62], 1, Some EFetch)); (OpRead 4, ([], 0, Some EUnexpectedPlace)); (OpSeek 7 0, ([], 0, Some EUnexpectedEOF));
        (OpRead 1, ([], 0, Some EEOF)); (OpSeek 20 0, ([], 20, None)); (OpRead 1, ([], 0, Some EEOF))].
Proof. eexists. split; [vm_compute; reflexivity|]. vm_compute. reflexivity. Qed.

(** The full claim is false: with nodes a reader accepts, writing, truncating and appending
    panic. *)
Theorem C101_write_refuted : exists n r w, NewDagReader w n = Ok r /\
  fst (mod_call split1 100 MSync (snd (mod_call split1 100 (MWriteAt [x7a] 3) (NewDagModifier n, w)))) = Panic.
Proof. exact write_panics. Qed.
Print Assumptions C101_write_refuted.
Theorem C101_truncate_refuted : exists n r w, NewDagReader w n = Ok r /\ fst (mod_call split1 100 (MTruncate 50) (NewDagModifier n, w)) = Panic.
Proof. exact truncate_leaf_panics. Qed.
Print Assumptions C101_truncate_refuted.
Theorem C101_truncate_node_refuted : exists n r w, NewDagReader w n = Ok r /\ node_links n <> [] /\ fst (mod_call split1 100 (MTruncate 4) (NewDagModifier n, w)) = Panic.
Proof. exact truncate_node_panics. Qed.
Print Assumptions C101_truncate_node_refuted.
Theorem C101_append_refuted : exists n r w, NewDagReader w n = Ok r /\ fst (fst (trickle_append 9 9 (limit 1) false [EvData [x61]] n w)) = Panic.
Proof. exact append_panics. Qed.
Print Assumptions C101_append_refuted.
