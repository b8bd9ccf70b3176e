From Verif Require Import Base Pb FSNode Dag Builder Balanced Trickle Importer Reader Modifier SpecFile SpecAppend SpecModifier SpecShare SpecLeak
  ReaderWitness ModifierRun ModifierFacts ShareProofs ShortenProofs TraceProofs LeakProofs.

(** C110: making a file larger, with Truncate or by writing at its end, and cutting it back keeps
    its contents, but each time one more block without data stays in the file: after [k] rounds there are at least
    [k] more, without a bound. *)
Theorem C110_leak : forall split n c k n', chunker_ok split -> file_content n c -> growable DefaultLinksPerBlock n -> rounds split (zlen c) k n n' -> file_content n' c /\ blanks n + Z.of_nat k <= blanks n'.
Proof. exact leak. Qed.
Print Assumptions C110_leak.

(** So the file never is the same again. *)
Theorem C110_never_back : forall split n c k n', chunker_ok split -> file_content n c -> growable DefaultLinksPerBlock n -> rounds split (zlen c) (S k) n n' -> n' <> n.
Proof. exact leak_differs. Qed.
Print Assumptions C110_never_back.

(** "ab|cd" grown to six bytes and cut back to four, twice: two blank blocks more;
    "xy" written at its end and cut off: one more. *)
Example C110_cases : forall raw t, let n := (if t : bool then tri raw else bal raw) ab_cd in
  chunker_ok bytewise /\ file_content n (concat ab_cd) /\ growable DefaultLinksPerBlock n /\ zlen (concat ab_cd) = 4 /\ exists n', rounds bytewise 4 2 n n' /\ blanks n = 0 /\ blanks n' = 2 /\
  exists n'', rounds bytewise 4 1 n n'' /\ blanks n'' = 1.
Proof.
  intros raw t n. assert (I1 : imported t (two_links raw) ab_cd n) by (destruct t; subst n; [apply trickle_imports|apply balanced_imports]).
  split; [exact bytewise_ok|]. split; [exists ab_cd; split; [eapply proj1, imported_facts, I1|reflexivity]|]. split; [apply root_growable; destruct t, raw; vm_compute; reflexivity|]. split; [reflexivity|].
  exists (cut_to 4 (cut_to 6 (cut_to 4 (cut_to 6 n)))). split; [apply two_rounds; [lia|]; destruct t, raw; vm_compute; reflexivity|]. split; [destruct t, raw; vm_compute; reflexivity|]. split; [destruct t, raw; vm_compute; reflexivity|].
  exists (cut_to 4 (wr 4 [Byte.x78; Byte.x79] n)). split; [apply a_write_round; [discriminate|reflexivity|]; destruct t, raw; vm_compute; reflexivity|]. destruct t, raw; vm_compute; reflexivity.
Qed.
