From Verif Require Import Base Pb FSNode Dag Builder Balanced Trickle Importer Reader Modifier SpecFile SpecModifier SpecShare SpecRewrite
  ReaderWitness ModifierRun ModifierFacts ShareProofs RewriteProofs.

(** C107: overwriting a file in place leaves no trace of the earlier contents. The root is a
    function of the first version (whose leaves are encoded as this library does it) and the
    contents, however many writes made them. *)
Theorem C107_same : forall split wbsize n c ops1 ops2 n1 n2, chunker_ok split -> file_content n c -> canonical_leaves n -> zlen c < 9223372036854775808 -> inside (zlen c) ops1 -> inside (zlen c) ops2 ->
  overwritten split wbsize n ops1 n1 -> overwritten split wbsize n ops2 n2 -> puts c ops1 = puts c ops2 -> n1 = n2.
Proof. exact rewrite_same. Qed.
Print Assumptions C107_same.

(** Writing what is there already, or undoing all changes, gives the root of the start. *)
Theorem C107_back : forall split wbsize n c ops n', chunker_ok split -> file_content n c -> canonical_leaves n -> zlen c < 9223372036854775808 -> inside (zlen c) ops ->
  overwritten split wbsize n ops n' -> puts c ops = c -> n' = n.
Proof. exact rewrite_back. Qed.
Print Assumptions C107_back.

(** An imported file that is overwritten is the file that importing the new contents, cut at
    the same places, gives. *)
Theorem C107_import : forall split wbsize trickle dbp xs ys r1 r2 ops n', chunker_ok split -> zlen (concat xs) < 9223372036854775808 -> map zlen xs = map zlen ys -> imported trickle dbp xs r1 -> imported trickle dbp ys r2 ->
  inside (zlen (concat xs)) ops -> overwritten split wbsize r1 ops n' -> puts (concat xs) ops = concat ys -> n' = r2.
Proof. exact rewrite_import. Qed.
Print Assumptions C107_import.

(** Files of this importer meet the condition on the leaves. *)
Theorem C107_canonical : forall trickle dbp xs r, imported trickle dbp xs r -> canonical_leaves r.
Proof. exact imported_canonical. Qed.
Print Assumptions C107_canonical.

(** Without it, writing a byte that is there already changes the root. *)
Theorem C107_other_encodings_refuted : exists split wbsize n c off b w n' s', chunker_ok split /\ file_content n c /\ tsizes_exact n /\ 0 <= off /\ off + zlen b <= zlen c /\ put c off b = c /\ write_back split wbsize b off n w = (Ok n', s') /\ n' <> n.
Proof. exact rewrite_refuted. Qed.
Print Assumptions C107_other_encodings_refuted.

(** One chunk replaced; two replaced and put back. *)
Example C107_cases : forall raw, chunker_ok bytewise /\
  imported false (two_links raw) abc (bal raw abc) /\ imported false (two_links raw) azc (bal raw azc) /\ map zlen abc = map zlen azc /\
  inside (zlen (concat abc)) [(1, [x7a])] /\ puts (concat abc) [(1, [x7a])] = concat azc /\ (exists n', overwritten bytewise wb (bal raw abc) [(1, [x7a])] n') /\
  inside (zlen (concat abc)) [(0, [x79; x7a]); (0, [x61; x62])] /\ puts (concat abc) [(0, [x79; x7a]); (0, [x61; x62])] = concat abc /\
  (exists n', overwritten bytewise wb (bal raw abc) [(0, [x79; x7a]); (0, [x61; x62])] n') /\
  imported true (two_links raw) abc (tri raw abc) /\ imported true (two_links raw) azc (tri raw azc) /\ (exists n', overwritten bytewise wb (tri raw abc) [(1, [x7a])] n').
Proof.
  intros raw. split; [exact bytewise_ok|]. split; [destruct raw; (apply bal_imported; [vm_compute; reflexivity|discriminate|reflexivity])|]. split; [destruct raw; (apply bal_imported; [vm_compute; reflexivity|discriminate|reflexivity])|].
  split; [reflexivity|]. split; [repeat constructor; unfold zlen; cbn [concat abc app length fst snd]; lia|]. split; [vm_compute; reflexivity|]. split; [apply one_write; destruct raw; vm_compute; reflexivity|]. split; [repeat constructor; unfold zlen; cbn [concat abc app length fst snd]; lia|]. split; [vm_compute; reflexivity|].
  split; [apply two_writes; destruct raw; vm_compute; reflexivity|]. split; [destruct raw; (apply tri_imported; [vm_compute; reflexivity|discriminate|cbn; lia|reflexivity])|]. split; [destruct raw; (apply tri_imported; [vm_compute; reflexivity|discriminate|cbn; lia|reflexivity])|].
  apply one_write; destruct raw; vm_compute; reflexivity.
Qed.
