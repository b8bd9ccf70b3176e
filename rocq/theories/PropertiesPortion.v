From Verif Require Import Base Pb FSNode Dag Builder Balanced Trickle Importer Reader Modifier SpecFile SpecAppend SpecModifier SpecShare SpecHole SpecPieces
  ReaderWitness ModifierRun ModifierFacts ShareProofs ShortenProofs TraceProofs RewriteProofs LeakProofs HoleProofs FlushProofs ChunksProofs OverEndProofs SpecEvolve EvolveProofs PortionProofs.

(** C117: the number of chunks of a file does not depend on how often it was written to. False: a
    file of 100000 bytes, written byte by byte and saved in between, has 100000 chunks; in one
    piece, it has one. *)
Theorem C117_chunks_by_size_refuted : exists split n bs n1 n2 r1 r2, fixed_size 262144 split /\ made [] n /\
  edited split 2097152 n (at_end 0 bs) n1 /\ edited split 2097152 n (at_end 0 [concat bs]) n2 /\ file_dag n1 r1 /\ file_dag n2 r2 /\ concat r1 = concat r2 /\ zlen (solid r1) = 100000 /\ zlen (solid r2) = 1.
Proof. exact chunks_by_size_refuted. Qed.
Print Assumptions C117_chunks_by_size_refuted.

(** So it is for all sizes up to that of a chunk, and for all write buffers. *)
Theorem C117_many_chunks : forall s split wbsize k n, 0 < s <= BlockSizeLimit -> fixed_size s split -> made [] n -> 1 <= k <= s -> exists bs n1 n2 r1 r2, concat bs = repeat Byte.x61 (Z.to_nat k) /\
  edited split wbsize n (at_end 0 bs) n1 /\ edited split wbsize n (at_end 0 [concat bs]) n2 /\ file_dag n1 r1 /\ file_dag n2 r2 /\ concat r1 = concat r2 /\ zlen (solid r1) = k /\ zlen (solid r2) = 1.
Proof. exact many_chunks. Qed.
Print Assumptions C117_many_chunks.

(** The chunks are those that the chunker makes of each portion, *)
Theorem C117_portions_chunks : forall split wbsize n cs bs n', chunker_ok split -> file_dag n cs -> growable DefaultLinksPerBlock n -> Forall (fun b => b <> []) bs -> zlen (concat cs) + zlen (concat bs) < 9223372036854775808 ->
  edited split wbsize n (at_end (zlen (concat cs)) bs) n' -> exists rcs, file_dag n' rcs /\ solid rcs = solid cs ++ concat (map (fun b => solid (split b)) bs).
Proof. exact portions_chunks. Qed.
Print Assumptions C117_portions_chunks.

(** at least one for each portion; *)
Theorem C117_portions_many : forall split wbsize n cs bs n' rcs, chunker_ok split -> file_dag n cs -> growable DefaultLinksPerBlock n -> Forall (fun b => b <> []) bs -> zlen (concat cs) + zlen (concat bs) < 9223372036854775808 ->
  edited split wbsize n (at_end (zlen (concat cs)) bs) n' -> file_dag n' rcs -> zlen (solid cs) + zlen bs <= zlen (solid rcs).
Proof. exact portions_many. Qed.
Print Assumptions C117_portions_many.

(** with a fixed chunk size small portions are the chunks, *)
Theorem C117_small_portions : forall s split wbsize n cs bs n', 0 < s <= BlockSizeLimit -> fixed_size s split -> file_dag n cs -> growable DefaultLinksPerBlock n -> Forall (fun b => 0 < zlen b <= s) bs -> zlen (concat cs) + zlen (concat bs) < 9223372036854775808 ->
  edited split wbsize n (at_end (zlen (concat cs)) bs) n' -> exists rcs, file_dag n' rcs /\ solid rcs = solid cs ++ bs.
Proof. exact small_portions. Qed.
Print Assumptions C117_small_portions.

(** and data written in one call takes no more chunks than its size needs. *)
Theorem C117_at_once_few : forall s split wbsize n cs b n' rcs, 0 < s <= BlockSizeLimit -> fixed_size s split -> file_dag n cs -> growable DefaultLinksPerBlock n -> b <> [] -> zlen (concat cs) + zlen b < 9223372036854775808 ->
  edited split wbsize n (at_end (zlen (concat cs)) [b]) n' -> file_dag n' rcs -> s * (zlen (solid rcs) - zlen (solid cs)) <= zlen b + s.
Proof. exact at_once_few. Qed.
Print Assumptions C117_at_once_few.

(** "x", "yz" and "x" written behind "ab|cd" in pieces of two bytes. *)
Example C117_portions_case : forall raw t, let n := (if t : bool then tri raw else bal raw) ab_cd in let bs := [[Byte.x78]; [Byte.x79; Byte.x7a]; [Byte.x78]] in
  fixed_size 2 (chop 2) /\ file_dag n ab_cd /\ growable DefaultLinksPerBlock n /\ Forall (fun b => 0 < zlen b <= 2) bs /\ Forall (fun b => b <> []) bs /\
  (exists n', edited (chop 2) 8 n (at_end (zlen (concat ab_cd)) bs) n') /\ exists n', edited (chop 2) 8 n (at_end (zlen (concat ab_cd)) [concat bs]) n'.
Proof. exact portions_case. Qed.
