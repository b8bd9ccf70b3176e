From Verif Require Import Base Pb FSNode Dag Builder Balanced Trickle Importer Reader Modifier SpecFile SpecAppend SpecModifier SpecShare SpecHole
  ReaderWitness ModifierRun ModifierFacts ShareProofs ShortenProofs TraceProofs RewriteProofs LeakProofs HoleProofs.

(** C111: writing past the end of a file is the same as making it larger with Truncate and then
    writing at its end, in the answer, in the root and in what is stored, also if the store fails. *)
Theorem C111_write_past_end : forall split wbsize b off n c w, file_content n c -> growable DefaultLinksPerBlock n -> zlen c < off -> off + zlen b < 9223372036854775808 ->
  outcome (write_back split wbsize b off n w) = outcome (grow_write split wbsize b off n w).
Proof. exact write_is_grow. Qed.
Print Assumptions C111_write_past_end.

(** It also is the same as moving there with Seek and writing. *)
Theorem C111_seek_past_end : forall split wbsize b off n c w, file_content n c -> growable DefaultLinksPerBlock n -> zlen c < off -> off + zlen b < 9223372036854775808 ->
  outcome (seek_write split wbsize b off n w) = outcome (write_back split wbsize b off n w).
Proof. exact seek_is_write. Qed.
Print Assumptions C111_seek_past_end.

(** "xy" written at 6 after "ab|cd"; with a full buffer and without; to a store that takes nothing. *)
Example C111_cases : forall raw t, let n := (if t : bool then tri raw else bal raw) ab_cd in
  file_content n (concat ab_cd) /\ growable DefaultLinksPerBlock n /\ zlen (concat ab_cd) = 4 /\
  (forall wbsize, In wbsize [1; 100] -> exists n' m' w', write_back bytewise wbsize [Byte.x78; Byte.x79] 6 n full = (Ok n', (m', w')) /\ (length (w_added full) < length (w_added w'))%nat) /\
  exists e s', write_back bytewise 1 [Byte.x78; Byte.x79] 6 n takes_nothing = (Err e, s').
Proof.
  intros raw t n. assert (I1 : imported t (two_links raw) ab_cd n) by (destruct t; subst n; [apply trickle_imports|apply balanced_imports]).
  split; [exists ab_cd; split; [eapply proj1, imported_facts, I1|reflexivity]|]. split; [apply root_growable; destruct t, raw; vm_compute; reflexivity|]. split; [reflexivity|]. split.
  - intros wb H. apply grew_ex. destruct H as [<-|[<-|[]]]; destruct t, raw; vm_compute; reflexivity.
  - apply failed_ex. destruct t, raw; vm_compute; reflexivity.
Qed.

(** C112: making a file larger with Truncate gives the root that writing zeros at its end gives,
    if the chunker cuts the zeros into pieces of 4096 bytes. *)
Theorem C112_zeros : forall split d n c w1 n1 s1 split2 wbsize w2 n2 s2, chunker_ok split2 -> file_content n c -> growable DefaultLinksPerBlock n -> canonical_leaves n -> zlen c < d < 9223372036854775808 ->
  truncate_to split d n w1 = (Ok n1, s1) -> write_back split2 wbsize (repeat Byte.x00 (Z.to_nat (d - zlen c))) (zlen c) n w2 = (Ok n2, s2) ->
  cut_every 4096 (split2 (repeat Byte.x00 (Z.to_nat (d - zlen c)))) -> n1 = n2.
Proof. exact same_append. Qed.
Print Assumptions C112_zeros.

(** "ab|cd" grown to six bytes. *)
Example C112_case : forall raw t, let n := (if t : bool then tri raw else bal raw) ab_cd in
  chunker_ok in_one /\ file_content n (concat ab_cd) /\ growable DefaultLinksPerBlock n /\ canonical_leaves n /\
  (exists n1 s1, truncate_to in_one 6 n full = (Ok n1, s1)) /\ (exists n2 s2, write_back in_one 1 [Byte.x00; Byte.x00] 4 n full = (Ok n2, s2)) /\ cut_every 4096 (in_one [Byte.x00; Byte.x00]).
Proof.
  intros raw t n. assert (I1 : imported t (two_links raw) ab_cd n) by (destruct t; subst n; [apply trickle_imports|apply balanced_imports]).
  split; [exact in_one_ok|]. split; [exists ab_cd; split; [eapply proj1, imported_facts, I1|reflexivity]|]. split; [apply root_growable; destruct t, raw; vm_compute; reflexivity|]. split; [exact (imported_canonical _ _ _ _ I1)|].
  split; [apply ok_ex; destruct t, raw; vm_compute; reflexivity|]. split; [apply ok_ex; destruct t, raw; vm_compute; reflexivity|].
  exists [], [[Byte.x00; Byte.x00]]. split; [reflexivity|]. split; [constructor|]. right. eexists. split; [reflexivity|]. split; reflexivity.
Qed.

(** With another chunker, the one the file itself was cut with, the roots differ. *)
Theorem C112_zeros_refuted : exists split wbsize n c d w n1 s1 n2 s2, chunker_ok split /\ file_content n c /\ growable DefaultLinksPerBlock n /\ canonical_leaves n /\ zlen c < d < 9223372036854775808 /\
  truncate_to split d n w = (Ok n1, s1) /\ write_back split wbsize (repeat Byte.x00 (Z.to_nat (d - zlen c))) (zlen c) n w = (Ok n2, s2) /\ n1 <> n2.
Proof. exact zeros_differ. Qed.
Print Assumptions C112_zeros_refuted.
