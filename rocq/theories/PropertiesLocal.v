(** Property C87: files with missing blocks. *)
From Verif Require Import Base Pb FSNode Dag SpecFile Reader SpecReader ReaderRun ReaderProofs ReaderProofs2 ReaderWitness SpecLocal LocalRun LocalProofs.

(** A file is opened; then any reads, copies into any destinations, and seeks, with any
    blocks missing at each call. Every answer is one that [skew_step] allows. *)
Theorem C87_every_history : forall w0 root r content ops,
  NewDagReader w0 root = Ok r -> file_content root content -> zlen content < 9223372036854775808 -> Forall (fun x => lop_ok (snd x)) ops ->
  exists t r', lrun ops r = Some (t, r') /\ skew_run root content (0, 0) ops t.
Proof. exact every_history. Qed.
Print Assumptions C87_every_history.
(** The same without seeks for every DAG, whatever its recorded sizes. *)
Theorem C87_any_dag : forall w0 root r content ops,
  NewDagReader w0 root = Ok r -> tree_bytes (r_root r) content -> Forall (fun x => unmoved (snd x)) ops ->
  exists t r', lrun ops r = Some (t, r') /\ skew_run (r_root r) content (0, 0) ops t.
Proof. exact every_reading. Qed.
Print Assumptions C87_any_dag.
(** A range of a file can be read if the blocks that hold its first byte and those that begin
    within it are available. *)
Theorem C87_range : forall w0 w root r content p k,
  NewDagReader w0 root = Ok r -> file_content root content -> zlen content < 9223372036854775808 -> 0 <= p < 9223372036854775808 ->
  (forall lo hi m, block_at root lo hi m -> lo <= p < hi \/ Z.min p (zlen content) <= lo < Z.min p (zlen content) + Z.max 1 (Z.of_nat k) -> dserv_get w m = Ok m) ->
  exists e r', lrun [(w, LSeek p 0); (w, LRead k)] r = Some ([([], p, None); (read_at content p k, zlen (read_at content p k), e)], r') /\
    (e = None \/ e = Some EEOF) /\ (e = None -> zlen (read_at content p k) = Z.of_nat k).
Proof. exact seek_then_read. Qed.
Print Assumptions C87_range.
(** A seek fails exactly if a block that holds the byte is missing. *)
Theorem C87_seek_exact : forall w0 w root r content p,
  NewDagReader w0 root = Ok r -> file_content root content -> zlen content < 9223372036854775808 -> 0 < p < 9223372036854775808 ->
  (snd (fst (Seek w p 0 r)) = Err EFetch <-> lacks w root (fun lo hi => lo <= p < hi)).
Proof. exact seek_exact. Qed.
Print Assumptions C87_seek_exact.

Definition opened : reader := mkReader abcde 5 0 [] None.
(** With "de" missing, "bc" can be read; a seek to "e" fails, and the reader then reports
    position 0 but reads at "d", so a seek to 0 does nothing, and once "de" is there it
    reads "de" and reports 2. A destination that fails after two bytes leaves the reader
    reporting 0 and reading at "c". *)
Example C87_case : file_content abcde [x61; x62; x63; x64; x65] /\ NewDagReader full abcde = Ok opened /\
  block_at abcde 3 5 leaf_de /\ dserv_get missing_de leaf_de <> Ok leaf_de /\ dserv_get missing_de leaf_abc = Ok leaf_abc /\
  exists r', lrun [(missing_de, LSeek 1 0); (missing_de, LRead 2); (missing_de, LSeek 4 0); (full, LSeek 0 0); (full, LRead 9); (full, LSeek 0 1); (full, LSeek 0 0); (full, LCopy two_bytes); (full, LSeek 0 1); (full, LRead 2)] opened =
    Some ([([], 1, None); ([x62; x63], 2, None); ([], 0, Some EFetch); ([], 0, None); ([x64; x65], 2, Some EEOF); ([], 2, None); ([], 0, None); ([x61; x62], 2, Some EWrite); ([], 0, None); ([x63; x64], 2, None)], r').
Proof.
  split; [exact abcde_content|]. split; [vm_compute; reflexivity|]. split.
  { apply (ba_child abcde [nolink leaf_abc] (nolink leaf_de) [] [[x61; x62; x63]] [x64; x65]); [reflexivity| |]; repeat constructor. }
  split; [vm_compute; discriminate|]. split; [reflexivity|]. eexists. vm_compute. reflexivity.
Qed.
