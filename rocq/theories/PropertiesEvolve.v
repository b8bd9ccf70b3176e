From Verif Require Import Base Pb FSNode Dag Builder Balanced Trickle Importer Reader Modifier SpecFile SpecAppend SpecModifier SpecShare SpecHole SpecPieces
  ReaderWitness ModifierRun ModifierFacts ShareProofs ShortenProofs TraceProofs RewriteProofs LeakProofs HoleProofs FlushProofs ChunksProofs OverEndProofs SpecEvolve EvolveProofs.

(** C116: the chunks of a file after any history of writes and truncations are those that the
    edits give, whatever the shape of the tree. *)
Theorem C116_history_chunks : forall split wbsize n cs es n', chunker_ok split -> file_dag n cs -> zlen (concat cs) < 9223372036854775808 -> growable DefaultLinksPerBlock n -> Forall possible es -> edited split wbsize n es n' ->
  exists rcs, file_dag n' rcs /\ chunks_edits split es (solid cs) (solid rcs).
Proof. exact history_chunks. Qed.
Print Assumptions C116_history_chunks.

(** What the edits give is unique. *)
Theorem C116_edits_unique : forall split es cs c1 c2, Forall possible es -> chunks_edits split es cs c1 -> chunks_edits split es cs c2 -> c1 = c2.
Proof. exact chunks_edits_fun. Qed.
Print Assumptions C116_edits_unique.

(** Two files with the same chunks, in trees of any shapes and with any CID formats, have the same
    chunks after the same edits, whatever the write buffers and the stores. *)
Theorem C116_same_chunks : forall split wb1 wb2 n1 n2 cs1 cs2 es n1' n2' r1 r2, chunker_ok split -> file_dag n1 cs1 -> file_dag n2 cs2 -> solid cs1 = solid cs2 -> zlen (concat cs1) < 9223372036854775808 ->
  growable DefaultLinksPerBlock n1 -> growable DefaultLinksPerBlock n2 -> Forall possible es ->
  edited split wb1 n1 es n1' -> edited split wb2 n2 es n2' -> file_dag n1' r1 -> file_dag n2' r2 -> solid r1 = solid r2.
Proof. exact history_same. Qed.
Print Assumptions C116_same_chunks.

(** The rules give the bytes one expects. *)
Theorem C116_rules_content : forall split e cs cs', chunker_ok split -> possible e -> chunks_edit split e cs cs' ->
  concat cs' = match e with Put b off => put (concat cs) off b | Cut size => resize (concat cs) size end.
Proof. exact chunks_edit_content. Qed.
Print Assumptions C116_rules_content.

(** With a store that works every edit succeeds, so every history can happen. *)
Theorem C116_edit_succeeds : forall split wbsize e n cs w, chunker_ok split -> file_dag n cs -> zlen (concat cs) < 9223372036854775808 -> growable DefaultLinksPerBlock n -> good_store w n -> possible e ->
  exists n1 s, edit_node split wbsize e n w = (Ok n1, s).
Proof. exact edit_ok. Qed.
Print Assumptions C116_edit_succeeds.
Theorem C116_history_exists : forall split wbsize es n cs, chunker_ok split -> file_dag n cs -> zlen (concat cs) < 9223372036854775808 -> growable DefaultLinksPerBlock n -> Forall possible es -> exists n', edited split wbsize n es n'.
Proof. exact history_ok. Qed.
Print Assumptions C116_history_exists.

(** "ab|cd" in the two formats: a write inside, one over the end, one behind it, cut and extended. *)
Example C116_five_edits : forall raw, let n1 := tri raw ab_cd in let n2 := bal raw ab_cd in
  chunker_ok (chop 2) /\ file_dag n1 ab_cd /\ file_dag n2 ab_cd /\ growable DefaultLinksPerBlock n1 /\ growable DefaultLinksPerBlock n2 /\ Forall possible five_edits /\
  (exists n', edited (chop 2) 1 n1 five_edits n') /\ exists n', edited (chop 2) 8 n2 five_edits n'.
Proof. exact five_case. Qed.
