From Verif Require Import Base Pb FSNode Dag Builder Balanced Trickle Importer Reader Modifier SpecFile SpecAppend SpecModifier SpecShare SpecPieces
  ReaderWitness ModifierRun ModifierFacts LeakProofs HoleProofs PiecesProofs FlushProofs.

(** C113: data that fits into the write buffer may be written in any number of calls: the modifier
    is left as one call for all of it leaves it, whatever was done before. *)
Theorem C113_pieces : forall split wbsize ps m w, ps <> [] -> waiting m + zlen (concat ps) <= wbsize ->
  fst (writes split wbsize ps (m, w)) = Ok tt /\ snd (writes split wbsize ps (m, w)) = snd (mWrite split wbsize (concat ps) (m, w)).
Proof. exact pieces. Qed.
Print Assumptions C113_pieces.

(** The root, the error and the blocks stored therefore do not depend on the pieces. *)
Theorem C113_root : forall split wbsize ps1 ps2 n w, ps1 <> [] -> ps2 <> [] -> concat ps1 = concat ps2 -> zlen (concat ps1) <= wbsize ->
  (do _ <- writes split wbsize ps1 ;; mGetNode split) (NewDagModifier n, w) = (do _ <- writes split wbsize ps2 ;; mGetNode split) (NewDagModifier n, w).
Proof. exact pieces_root. Qed.
Print Assumptions C113_root.

(** "abc" and "d", or "abcd", written to the empty file; also with "xy" waiting in the buffer. *)
Example C113_case : concat abc_d = concat [concat abc_d] /\ zlen (concat abc_d) <= 2097152 /\
  (exists n' s', (do _ <- writes in_one 2097152 abc_d ;; mGetNode in_one) (NewDagModifier nothing, full) = (Ok n', s')) /\
  waiting (buffered (NewDagModifier nothing) [Byte.x78; Byte.x79]) + zlen (concat abc_d) <= 2097152.
Proof.
  split; [reflexivity|]. split; [change (4 <= 2097152); lia|]. split; [apply ok_ex; vm_compute; reflexivity|]. change (6 <= 2097152). lia.
Qed.

(** When the first call writes more than the buffer holds, the two roots are known for files
    of up to two times the link limit, starting from the empty file: they are the same exactly
    if the chunker cuts at the end of the first piece. *)
Theorem C113_flushed : forall split wbsize n a b w n1 s1 n2 s2, chunker_ok split -> made [] n -> 0 <= wbsize < zlen a -> b <> [] -> zlen a + zlen b < 9223372036854775808 ->
  zlen (split a) + zlen (split b) <= 2 * DefaultLinksPerBlock -> zlen (split (a ++ b)) <= 2 * DefaultLinksPerBlock ->
  (do _ <- writes split wbsize [a; b] ;; mGetNode split) (NewDagModifier n, w) = (Ok n1, s1) -> (do _ <- writes split wbsize [a ++ b] ;; mGetNode split) (NewDagModifier n, w) = (Ok n2, s2) ->
  (n1 = n2 <-> split a ++ split b = split (a ++ b)).
Proof. exact flushed. Qed.
Print Assumptions C113_flushed.

(** With chunks of a fixed size: if that divides the size of the first piece. *)
Theorem C113_flushed_fixed : forall s split wbsize n a b w n1 s1 n2 s2, 0 < s <= BlockSizeLimit -> fixed_size s split -> made [] n -> 0 <= wbsize < zlen a -> b <> [] ->
  zlen a + zlen b <= s * (2 * DefaultLinksPerBlock - 2) ->
  (do _ <- writes split wbsize [a; b] ;; mGetNode split) (NewDagModifier n, w) = (Ok n1, s1) -> (do _ <- writes split wbsize [a ++ b] ;; mGetNode split) (NewDagModifier n, w) = (Ok n2, s2) ->
  (n1 = n2 <-> zlen a mod s = 0).
Proof. exact flushed_fixed. Qed.
Print Assumptions C113_flushed_fixed.

(** The empty file in two formats; "abc" and "d" with a buffer of two bytes. *)
Example C113_flushed_cases : forall p, In p [mkPrefix 0 112 18 32; mkPrefix 1 112 18 32] ->
  made [] (empty_of p) /\ fixed_size 2 (chop 2) /\ chunker_ok (chop 2) /\
  (exists n1 s1, (do _ <- writes (chop 2) 2 abc_d ;; mGetNode (chop 2)) (NewDagModifier (empty_of p), full) = (Ok n1, s1)) /\
  (exists n2 s2, (do _ <- writes (chop 2) 2 [concat abc_d] ;; mGetNode (chop 2)) (NewDagModifier (empty_of p), full) = (Ok n2, s2)).
Proof.
  intros p H. split; [exact (empty_made p H)|]. split; [apply chop_fixed; lia|]. split; [apply (fixed_chunker 2); [unfold BlockSizeLimit; lia|apply chop_fixed; lia]|].
  split; apply ok_ex; destruct H as [<-|[<-|[]]]; vm_compute; reflexivity.
Qed.

(** With the buffer and the default chunks of the code the claim is false. *)
Theorem C113_refuted : exists split n a b w n1 s1 n2 s2, fixed_size 262144 split /\ made [] n /\
  (do _ <- writes split 2097152 [a; b] ;; mGetNode split) (NewDagModifier n, w) = (Ok n1, s1) /\ (do _ <- writes split 2097152 [a ++ b] ;; mGetNode split) (NewDagModifier n, w) = (Ok n2, s2) /\ n1 <> n2.
Proof. exact pieces_differ. Qed.
Print Assumptions C113_refuted.
