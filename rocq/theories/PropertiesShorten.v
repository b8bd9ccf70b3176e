From Verif Require Import Base Pb FSNode Dag Builder Balanced Trickle Importer Reader Modifier SpecFile SpecShare ReaderWitness ModifierRun ModifierFacts ShareProofs ShortenProofs.

(** C108: truncating a file against importing what is left of it. The chunks of the truncated
    file are those before the cut and what is left of the chunk with the cut: *)
Theorem C108_chunks : forall split size n xs c ys w n' s', file_dag n (xs ++ c :: ys) -> zlen (concat (xs ++ c :: ys)) < 9223372036854775808 -> zlen (concat xs) <= size < zlen (concat xs) + zlen c ->
  truncate_to split size n w = (Ok n', s') -> file_dag n' (xs ++ [ztake (size - zlen (concat xs)) c]).
Proof. exact truncate_chunks. Qed.
Print Assumptions C108_chunks.

(** A trickle file cut inside a chunk is the file that importing these chunks gives. *)
Theorem C108_trickle : forall split dbp xs c1 c2 ys r1 r2 w n' s', imported true dbp (xs ++ [c1]) r1 -> imported true dbp (xs ++ (c1 ++ c2) :: ys) r2 -> c2 <> [] -> zlen (concat (xs ++ (c1 ++ c2) :: ys)) < 9223372036854775808 ->
  truncate_to split (zlen (concat (xs ++ [c1]))) r2 w = (Ok n', s') -> n' = r1.
Proof. exact truncate_trickle. Qed.
Print Assumptions C108_trickle.

(** So is a balanced file with raw leaves, if the shorter file needs a tree of the same depth. *)
Theorem C108_balanced : forall split dbp xs c1 c2 ys r1 r2 w n' s', 1 <= pr_maxlinks dbp -> pr_raw dbp = true -> imported false dbp (xs ++ [c1]) r1 -> imported false dbp (xs ++ (c1 ++ c2) :: ys) r2 -> c2 <> [] -> zlen (concat (xs ++ (c1 ++ c2) :: ys)) < 9223372036854775808 ->
  (forall d : nat, zlen xs + 1 <= pr_maxlinks dbp ^ Z.of_nat d -> zlen xs + 1 + zlen ys <= pr_maxlinks dbp ^ Z.of_nat d) ->
  truncate_to split (zlen (concat (xs ++ [c1]))) r2 w = (Ok n', s') -> n' = r1.
Proof. exact truncate_balanced. Qed.
Print Assumptions C108_balanced.

(** A file cut between two chunks never is: an empty leaf stays at its end. *)
Theorem C108_boundary : forall split trickle dbp xs ys n w n' s' r, file_dag n (xs ++ ys) -> zlen (concat (xs ++ ys)) < 9223372036854775808 -> (forall c, In c ys -> c <> []) -> ys <> [] ->
  truncate_to split (zlen (concat xs)) n w = (Ok n', s') -> file_dag n' (xs ++ [[]]) /\ (imported trickle dbp xs r -> n' <> r).
Proof. exact truncate_boundary. Qed.
Print Assumptions C108_boundary.

(** Nor are all balanced files whose leaves are not raw (the cut leaf changes its type) or
    whose depth should shrink. *)
Theorem C108_leaf_type_refuted : exists split dbp xs c1 c2 r1 r2 w n' s', imported false dbp (xs ++ [c1]) r1 /\ imported false dbp (xs ++ [c1 ++ c2]) r2 /\ c2 <> [] /\
  truncate_to split (zlen (concat (xs ++ [c1]))) r2 w = (Ok n', s') /\ n' <> r1.
Proof. exact leaf_refuted. Qed.
Print Assumptions C108_leaf_type_refuted.

Theorem C108_depth_refuted : exists split dbp xs c1 c2 ys r1 r2 w n' s', pr_raw dbp = true /\ imported false dbp (xs ++ [c1]) r1 /\ imported false dbp (xs ++ (c1 ++ c2) :: ys) r2 /\ c2 <> [] /\
  truncate_to split (zlen (concat (xs ++ [c1]))) r2 w = (Ok n', s') /\ n' <> r1.
Proof. exact depth_refuted. Qed.
Print Assumptions C108_depth_refuted.

(** "ab|cd|ef" cut to three bytes (trickle), "ab|cd" cut to three bytes (balanced), and
    "ab|cd|ef" cut to two bytes. *)
Example C108_cases : forall raw,
  (imported true (two_links raw) ([[x61; x62]] ++ [[x63]]) (tri raw ab_c) /\ imported true (two_links raw) ([[x61; x62]] ++ ([x63] ++ [x64]) :: [[x65; x66]]) (tri raw ab_cd_ef) /\ file_dag (tri raw ab_cd_ef) ([[x61; x62]] ++ [x63; x64] :: [[x65; x66]]) /\
   (exists n' s', truncate_to bytewise 3 (tri raw ab_cd_ef) full = (Ok n', s')) /\ (exists n' s', truncate_to bytewise 2 (tri raw ab_cd_ef) full = (Ok n', s'))) /\
  (imported false (two_links raw) ([[x61; x62]] ++ [[x63]]) (bal raw ab_c) /\ imported false (two_links raw) ([[x61; x62]] ++ ([x63] ++ [x64]) :: []) (bal raw ab_cd) /\
   (exists n' s', truncate_to bytewise 3 (bal raw ab_cd) full = (Ok n', s')) /\ (forall d : nat, 1 + 1 <= 2 ^ Z.of_nat d -> 1 + 1 + 0 <= 2 ^ Z.of_nat d)).
Proof.
  intros raw. destruct (trickle_imports raw) as (T1 & T2 & T3), (balanced_imports raw) as (B1 & B2 & _). split.
  - split; [exact T1|]. split; [exact T3|]. split; [eapply proj1, imported_facts, T3|]. split; apply cut_works; destruct raw; vm_compute; reflexivity.
  - split; [exact B1|]. split; [exact B2|]. split; [apply cut_works; destruct raw; vm_compute; reflexivity|]. intros d H. lia.
Qed.
