From Verif Require Import Base Pb FSNode Dag Builder Balanced Trickle Importer Reader Modifier SpecFile SpecModifier SpecShare SpecRewrite
  ReaderWitness ModifierRun ModifierFacts ShareProofs RewriteProofs ShortenProofs TraceProofs.

(** C109: what is cut off a file leaves no trace in what is left. Truncating in steps gives
    the file that truncating once gives, whatever the file and its layout: *)
Theorem C109_steps : forall split n c a b w1 w2 w3 n1 n2 n3 s1 s2 s3, file_content n c -> zlen c < 9223372036854775808 -> 0 <= b <= a -> a <= zlen c ->
  truncate_to split a n w1 = (Ok n1, s1) -> truncate_to split b n1 w2 = (Ok n2, s2) -> truncate_to split b n w3 = (Ok n3, s3) -> n2 = n3.
Proof. exact truncate_steps. Qed.
Print Assumptions C109_steps.

(** What was written behind the cut before it was made does not matter: *)
Theorem C109_writes : forall split wbsize n c ops1 ops2 n1 n2 s w1 w2 r1 r2 s1 s2, chunker_ok split -> file_content n c -> canonical_leaves n -> zlen c < 9223372036854775808 -> inside (zlen c) ops1 -> inside (zlen c) ops2 ->
  overwritten split wbsize n ops1 n1 -> overwritten split wbsize n ops2 n2 -> 0 <= s <= zlen c -> ztake s (puts c ops1) = ztake s (puts c ops2) ->
  truncate_to split s n1 w1 = (Ok r1, s1) -> truncate_to split s n2 w2 = (Ok r2, s2) -> r1 = r2.
Proof. exact truncate_kept_only. Qed.
Print Assumptions C109_writes.

(** nor what was imported behind it, if both imports had the same chunk sizes. *)
Theorem C109_imports : forall split trickle dbp xs ys r1 r2 s w1 w2 n1 n2 s1 s2, imported trickle dbp xs r1 -> imported trickle dbp ys r2 -> map zlen xs = map zlen ys -> zlen (concat xs) < 9223372036854775808 -> 0 <= s <= zlen (concat xs) -> ztake s (concat xs) = ztake s (concat ys) ->
  truncate_to split s r1 w1 = (Ok n1, s1) -> truncate_to split s r2 w2 = (Ok n2, s2) -> n1 = n2.
Proof. exact truncate_imports_same. Qed.
Print Assumptions C109_imports.

(** "ab|cd|ef" cut to five and then to three bytes; with "d" replaced by "z" before it is cut
    to three bytes; and "ab|cz|ef" cut to three bytes. *)
Example C109_cases : forall raw t, let r := if t : bool then tri raw else bal raw in
  file_content (r ab_cd_ef) (concat ab_cd_ef) /\ canonical_leaves (r ab_cd_ef) /\
  (exists n1 n2 n3 s1 s2 s3, truncate_to bytewise 5 (r ab_cd_ef) full = (Ok n1, s1) /\ truncate_to bytewise 3 n1 full = (Ok n2, s2) /\ truncate_to bytewise 3 (r ab_cd_ef) full = (Ok n3, s3)) /\
  inside (zlen (concat ab_cd_ef)) [(3, [x7a])] /\ ztake 3 (puts (concat ab_cd_ef) [(3, [x7a])]) = ztake 3 (puts (concat ab_cd_ef) []) /\
  (exists n1 r1 r2 s1 s2, overwritten bytewise wb (r ab_cd_ef) [(3, [x7a])] n1 /\ truncate_to bytewise 3 n1 full = (Ok r1, s1) /\ truncate_to bytewise 3 (r ab_cd_ef) full = (Ok r2, s2)) /\
  imported t (two_links raw) ab_cd_ef (r ab_cd_ef) /\ imported t (two_links raw) ab_cz_ef (r ab_cz_ef) /\ map zlen ab_cd_ef = map zlen ab_cz_ef /\ ztake 3 (concat ab_cd_ef) = ztake 3 (concat ab_cz_ef) /\
  (exists n1 s1, truncate_to bytewise 3 (r ab_cz_ef) full = (Ok n1, s1)).
Proof.
  intros raw t r. assert (I1 : imported t (two_links raw) ab_cd_ef (r ab_cd_ef)) by (destruct t; subst r; [apply trickle_imports|apply balanced_imports]).
  assert (I2 : imported t (two_links raw) ab_cz_ef (r ab_cz_ef)).
  { destruct t; subst r; destruct raw; [apply tri_imported|apply tri_imported|apply bal_imported|apply bal_imported]; try (vm_compute; reflexivity); try discriminate; cbn; lia. }
  split; [exists ab_cd_ef; split; [eapply proj1, imported_facts, I1|reflexivity]|]. split; [eapply imported_canonical, I1|]. split; [apply steps_work; destruct t, raw; vm_compute; reflexivity|].
  split; [repeat constructor; unfold zlen; cbn [concat ab_cd_ef app length fst snd]; lia|]. split; [vm_compute; reflexivity|]. split; [apply write_cut; destruct t, raw; vm_compute; reflexivity|].
  split; [exact I1|]. split; [exact I2|]. split; [reflexivity|]. split; [vm_compute; reflexivity|]. apply cut_works; destruct t, raw; vm_compute; reflexivity.
Qed.
