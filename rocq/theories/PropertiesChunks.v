From Verif Require Import Base Pb FSNode Dag Builder Balanced Trickle Importer Reader Modifier SpecFile SpecAppend SpecModifier SpecShare SpecHole SpecPieces
  ReaderWitness ModifierRun ModifierFacts ShareProofs ShortenProofs TraceProofs RewriteProofs LeakProofs HoleProofs FlushProofs OnwardProofs ChunksProofs.

(** C115: Append keeps the chunks of the file, none is filled up or divided, and adds each chunk of
    the source as it is; apart from empty ones. *)
Theorem C115_append_chunks : forall fuel rfuel dbp fi chunks base w root base' w' cs, 1 <= pr_maxlinks dbp -> (length chunks < fuel)%nat -> (height base <= rfuel)%nat -> file_dag base cs -> appendable (pr_maxlinks dbp) base ->
  trickle_append fuel rfuel dbp fi (map EvData chunks) base w = (Ok root, base', w') -> exists rcs, file_dag root rcs /\ solid rcs = solid cs ++ solid chunks.
Proof. exact append_chunks. Qed.
Print Assumptions C115_append_chunks.

(** Writing at the end with the modifier adds the chunks of what is written. *)
Theorem C115_write_chunks : forall split wbsize b n cs w n1 s1, chunker_ok split -> file_dag n cs -> growable DefaultLinksPerBlock n -> b <> [] -> zlen (concat cs) + zlen b < 9223372036854775808 ->
  write_back split wbsize b (zlen (concat cs)) n w = (Ok n1, s1) -> exists rcs, file_dag n1 rcs /\ solid rcs = solid cs ++ solid (split b).
Proof. exact write_chunks. Qed.
Print Assumptions C115_write_chunks.

(** Growing with Truncate adds zeros in chunks of 4096 bytes, whatever the chunker. *)
Theorem C115_grow_chunks : forall split d n cs w n1 s1, file_dag n cs -> growable DefaultLinksPerBlock n -> zlen (concat cs) < d < 9223372036854775808 ->
  truncate_to split d n w = (Ok n1, s1) -> exists rcs zs, file_dag n1 rcs /\ solid rcs = solid cs ++ zs /\ cut_every 4096 zs /\ concat zs = repeat Byte.x00 (Z.to_nat (d - zlen (concat cs))).
Proof. exact grow_chunks. Qed.
Print Assumptions C115_grow_chunks.

(** "xyz" added to "ab|cd", in pieces of two bytes; and "ab|cd" grown to six bytes. *)
Example C115_cases : forall raw t, let n := (if t : bool then tri raw else bal raw) ab_cd in
  chunker_ok (chop 2) /\ file_dag n ab_cd /\ growable DefaultLinksPerBlock n /\ appendable DefaultLinksPerBlock n /\ (height n <= 2)%nat /\
  (exists root w', trickle_append 9 2 (grow_params n) false (map EvData (chop 2 [Byte.x78; Byte.x79; Byte.x7a])) n full = (Ok root, root, w')) /\
  (exists n1 s1, write_back (chop 2) 1 [Byte.x78; Byte.x79; Byte.x7a] 4 n full = (Ok n1, s1)) /\ (exists n1 s1, truncate_to (chop 2) 6 n full = (Ok n1, s1)).
Proof.
  intros raw t n. assert (I1 : imported t (two_links raw) ab_cd n) by (destruct t; subst n; [apply trickle_imports|apply balanced_imports]).
  assert (G : growable DefaultLinksPerBlock n) by (apply root_growable; destruct t, raw; vm_compute; reflexivity).
  split; [apply (fixed_chunker 2); [unfold BlockSizeLimit; lia|apply chop_fixed; lia]|]. split; [eapply proj1, imported_facts, I1|]. split; [exact G|]. split; [exact (growable_appendable _ _ K_pos G)|].
  split; [destruct t, raw; vm_compute; repeat constructor|]. split; [apply appended_ex; destruct t, raw; vm_compute; reflexivity|]. split; apply ok_ex; destruct t, raw; vm_compute; reflexivity.
Qed.

(** C112: growing gives the root that writing zeros gives only if the chunker cuts the zeros into
    pieces of 4096 bytes. (It must not return empty chunks.) *)
Theorem C112_zeros_exact : forall split d n c w1 n1 s1 split2 wbsize w2 n2 s2, chunker_ok split2 -> file_content n c -> growable DefaultLinksPerBlock n -> canonical_leaves n -> zlen c < d < 9223372036854775808 ->
  truncate_to split d n w1 = (Ok n1, s1) -> write_back split2 wbsize (repeat Byte.x00 (Z.to_nat (d - zlen c))) (zlen c) n w2 = (Ok n2, s2) ->
  ~ In [] (split2 (repeat Byte.x00 (Z.to_nat (d - zlen c)))) -> (n1 = n2 <-> cut_every 4096 (split2 (repeat Byte.x00 (Z.to_nat (d - zlen c))))).
Proof. exact zeros_exact. Qed.
Print Assumptions C112_zeros_exact.

(** "ab|cd" grown to seven bytes, and zeros written in pieces of two bytes and of 4096. *)
Example C112_exact_cases : forall raw t s, In s [2; 4096] -> let n := (if t : bool then tri raw else bal raw) ab_cd in
  chunker_ok (chop s) /\ file_content n (concat ab_cd) /\ growable DefaultLinksPerBlock n /\ canonical_leaves n /\
  (exists n1 s1, truncate_to (chop s) 7 n full = (Ok n1, s1)) /\ (exists n2 s2, write_back (chop s) 1 (repeat Byte.x00 3) 4 n full = (Ok n2, s2)) /\ ~ In [] (chop s (repeat Byte.x00 3)).
Proof.
  intros raw t s Hs n. assert (I1 : imported t (two_links raw) ab_cd n) by (destruct t; subst n; [apply trickle_imports|apply balanced_imports]).
  split; [apply (fixed_chunker s); [unfold BlockSizeLimit|apply chop_fixed]; destruct Hs as [<-|[<-|[]]]; lia|]. split; [exists ab_cd; split; [eapply proj1, imported_facts, I1|reflexivity]|]. split; [apply root_growable; destruct t, raw; vm_compute; reflexivity|]. split; [exact (imported_canonical _ _ _ _ I1)|].
  split; [apply ok_ex; destruct Hs as [<-|[<-|[]]], t, raw; vm_compute; reflexivity|]. split; [apply ok_ex; destruct Hs as [<-|[<-|[]]], t, raw; vm_compute; reflexivity|].
  destruct Hs as [<-|[<-|[]]]; vm_compute; intuition discriminate.
Qed.

(** C114 for files of any size: the roots differ if the chunker does not cut at the end of [c]. *)
Theorem C114_needs_cut : forall split wbsize c b n w n1 s1 f fi v n2 v', chunker_ok split -> made (split c) n -> b <> [] -> zlen c + zlen b < 9223372036854775808 ->
  write_back split wbsize b (zlen c) n w = (Ok n1, s1) -> (length (split (c ++ b)) < f)%nat -> trickle_import f (grow_params n) fi (map EvData (split (c ++ b))) v = (Ok n2, v') ->
  n1 = n2 -> solid (split c) ++ solid (split b) = solid (split (c ++ b)).
Proof. exact onward_needs. Qed.
Print Assumptions C114_needs_cut.

(** With chunks of a fixed size: if it does not divide the size of the file. *)
Theorem C114_needs_cut_fixed : forall s split wbsize c b n w n1 s1 f fi v n2 v', 0 < s <= BlockSizeLimit -> fixed_size s split -> made (split c) n -> b <> [] -> zlen c + zlen b < 9223372036854775808 ->
  write_back split wbsize b (zlen c) n w = (Ok n1, s1) -> (length (split (c ++ b)) < f)%nat -> trickle_import f (grow_params n) fi (map EvData (split (c ++ b))) v = (Ok n2, v') ->
  zlen c mod s <> 0 -> n1 <> n2.
Proof. exact onward_needs_fixed. Qed.
Print Assumptions C114_needs_cut_fixed.
(** The cases of [C114_cases] meet these hypotheses, too; "abc" in pieces of two bytes has a rest. *)
Example C114_rest : zlen (repeat Byte.x61 3) mod 2 <> 0.
Proof. discriminate. Qed.

(** C113 for any amount of data: when the first call writes more than the buffer holds, the roots
    differ if the chunker does not cut at the end of the first piece. *)
Theorem C113_needs_cut : forall split wbsize n a b w n1 s1 n2 s2, chunker_ok split -> file_content n [] -> growable DefaultLinksPerBlock n -> 0 <= wbsize < zlen a -> b <> [] -> zlen a + zlen b < 9223372036854775808 ->
  (do _ <- writes split wbsize [a; b] ;; mGetNode split) (NewDagModifier n, w) = (Ok n1, s1) -> (do _ <- writes split wbsize [a ++ b] ;; mGetNode split) (NewDagModifier n, w) = (Ok n2, s2) ->
  n1 = n2 -> solid (split a) ++ solid (split b) = solid (split (a ++ b)).
Proof. exact flushed_needs. Qed.
Print Assumptions C113_needs_cut.

(** With chunks of a fixed size: if it does not divide the size of the first piece. *)
Theorem C113_needs_cut_fixed : forall s split wbsize n a b w n1 s1 n2 s2, 0 < s <= BlockSizeLimit -> fixed_size s split -> file_content n [] -> growable DefaultLinksPerBlock n -> 0 <= wbsize < zlen a -> b <> [] -> zlen a + zlen b < 9223372036854775808 ->
  (do _ <- writes split wbsize [a; b] ;; mGetNode split) (NewDagModifier n, w) = (Ok n1, s1) -> (do _ <- writes split wbsize [a ++ b] ;; mGetNode split) (NewDagModifier n, w) = (Ok n2, s2) ->
  zlen a mod s <> 0 -> n1 <> n2.
Proof. exact flushed_needs_fixed. Qed.
Print Assumptions C113_needs_cut_fixed.

(** 701 bytes and two more in pieces of two bytes, more chunks than two times the link limit. *)
Example C113_needs_case : forall p, In p [mkPrefix 0 112 18 32; mkPrefix 1 112 18 32] -> let n := empty_of p in
  fixed_size 2 (chop 2) /\ chunker_ok (chop 2) /\ file_content n [] /\ growable DefaultLinksPerBlock n /\ zlen (repeat Byte.x61 701) mod 2 <> 0 /\
  (exists n1 s1, (do _ <- writes (chop 2) 2 [repeat Byte.x61 701; [Byte.x62; Byte.x62]] ;; mGetNode (chop 2)) (NewDagModifier n, full) = (Ok n1, s1)) /\
  (exists n2 s2, (do _ <- writes (chop 2) 2 [repeat Byte.x61 701 ++ [Byte.x62; Byte.x62]] ;; mGetNode (chop 2)) (NewDagModifier n, full) = (Ok n2, s2)).
Proof. exact needs_case. Qed.
