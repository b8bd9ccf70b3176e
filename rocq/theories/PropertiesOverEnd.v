From Verif Require Import Base Pb FSNode Dag Builder Balanced Trickle Importer Reader Modifier SpecFile SpecAppend SpecModifier SpecShare SpecHole SpecPieces
  ReaderWitness ModifierRun ModifierFacts ShareProofs ShortenProofs TraceProofs RewriteProofs LeakProofs HoleProofs FlushProofs ChunksProofs OverEndProofs.

(** C115: a write inside of a file changes what is in its chunks and not their sizes. *)
Theorem C115_inside_chunks : forall split wbsize b off n cs w n1 s1, chunker_ok split -> file_dag n cs -> zlen (concat cs) < 9223372036854775808 -> 0 <= off -> off + zlen b <= zlen (concat cs) ->
  write_back split wbsize b off n w = (Ok n1, s1) -> exists rcs, file_dag n1 rcs /\ map zlen rcs = map zlen cs /\ concat rcs = ztake off (concat cs) ++ b ++ zdrop (off + zlen b) (concat cs).
Proof. exact inside_chunks. Qed.
Print Assumptions C115_inside_chunks.

(** A write that begins in the file and ends behind it fills the old chunks, and adds the chunks
    that the chunker makes of the part that goes beyond the end. *)
Theorem C115_over_chunks : forall split wbsize b off n cs w n1 s1, chunker_ok split -> file_dag n cs -> growable DefaultLinksPerBlock n -> 0 <= off <= zlen (concat cs) -> zlen (concat cs) < off + zlen b < 9223372036854775808 ->
  write_back split wbsize b off n w = (Ok n1, s1) ->
  exists old rcs, file_dag n1 rcs /\ solid rcs = solid old ++ solid (split (zdrop (zlen (concat cs) - off) b)) /\
    map zlen old = map zlen cs /\ concat old = ztake off (concat cs) ++ ztake (zlen (concat cs) - off) b.
Proof. exact over_chunks. Qed.
Print Assumptions C115_over_chunks.

(** A write that begins behind the end adds zeros in chunks of 4096 bytes, and then the chunks of
    the data. *)
Theorem C115_past_chunks : forall split wbsize b off n cs w n1 s1, chunker_ok split -> file_dag n cs -> growable DefaultLinksPerBlock n -> zlen (concat cs) < off -> b <> [] -> off + zlen b < 9223372036854775808 ->
  write_back split wbsize b off n w = (Ok n1, s1) ->
  exists rcs zs, file_dag n1 rcs /\ solid rcs = solid cs ++ zs ++ solid (split b) /\ cut_every 4096 zs /\ concat zs = repeat Byte.x00 (Z.to_nat (off - zlen (concat cs))).
Proof. exact past_chunks. Qed.
Print Assumptions C115_past_chunks.

(** "xyz" written to "ab|cd" at 1, 3 and 7, in pieces of two bytes. *)
Example C115_three_cases : forall raw t, let n := (if t : bool then tri raw else bal raw) ab_cd in
  chunker_ok (chop 2) /\ file_dag n ab_cd /\ growable DefaultLinksPerBlock n /\ zlen (concat ab_cd) = 4 /\
  forall off, In off [1; 3; 7] -> exists n1 s1, write_back (chop 2) 1 [Byte.x78; Byte.x79; Byte.x7a] off n full = (Ok n1, s1).
Proof. exact three_cases. Qed.
