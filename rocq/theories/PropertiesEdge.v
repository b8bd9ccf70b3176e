From Verif Require Import Base Pb FSNode Dag Builder Balanced Trickle Importer SpecFile SpecShare SpecEdge ShareProofs AppendRun EdgeProofs.

(** C106: adding data at the end of a file keeps the blocks of the file except those on the
    path from the root to the last leaf. With the balanced layout: *)
Theorem C106_balanced : forall dbp xs ys r1 r2, 2 <= pr_maxlinks dbp -> imported false dbp xs r1 -> imported false dbp (xs ++ ys) r2 ->
  forall m, reach r1 m -> on_edge r1 m \/ reach r2 m.
Proof. exact balanced_kept. Qed.
Print Assumptions C106_balanced.

(** These are few: their number grows with the logarithm of the number of chunks. *)
Theorem C106_few : forall dbp xs ys r1 r2, 2 <= pr_maxlinks dbp -> imported false dbp xs r1 -> imported false dbp (xs ++ ys) r2 ->
  exists path, (forall m, reach r1 m -> In m path \/ reach r2 m) /\ (2 <= zlen path -> pr_maxlinks dbp ^ (zlen path - 2) < zlen xs).
Proof. exact balanced_few. Qed.
Print Assumptions C106_few.

(** With the trickle layout: *)
Theorem C106_trickle : forall dbp xs ys r1 r2, imported true dbp xs r1 -> imported true dbp (xs ++ ys) r2 ->
  forall m, reach r1 m -> on_edge r1 m \/ reach r2 m.
Proof. exact trickle_kept. Qed.
Print Assumptions C106_trickle.

(** By appending to an existing file, whatever made it, whatever the chunker gives (also an
    error after some chunks, if the append succeeds) and whatever the parameters: *)
Theorem C106_append : forall fuel rf dbp fi spl base w r base' w' cs, file_dag base cs -> trickle_append fuel rf dbp fi spl base w = (Ok r, base', w') ->
  forall m, reach base m -> on_edge base m \/ reach r m.
Proof. exact append_kept. Qed.
Print Assumptions C106_append.

(** Three chunks and four more; the root is not kept. *)
Example C106_cases : forall raw,
  (imported false (two_links raw) three (bal raw three) /\ imported false (two_links raw) (three ++ four) (bal raw (three ++ four)) /\ ~ reach (bal raw (three ++ four)) (bal raw three)) /\
  (imported true (two_links raw) three (tri raw three) /\ imported true (two_links raw) (three ++ four) (tri raw (three ++ four)) /\ ~ reach (tri raw (three ++ four)) (tri raw three)).
Proof.
  intros raw. split.
  - split; [destruct raw; (apply bal_imported; [vm_compute; reflexivity|discriminate|reflexivity])|]. split; [destruct raw; (apply bal_imported; [vm_compute; reflexivity|discriminate|reflexivity])|].
    apply absent_ok. destruct raw; vm_compute; reflexivity.
  - split; [destruct raw; (apply tri_imported; [vm_compute; reflexivity|discriminate|cbn; lia|reflexivity])|]. split; [destruct raw; (apply tri_imported; [vm_compute; reflexivity|discriminate|cbn; lia|reflexivity])|].
    apply absent_ok. destruct raw; vm_compute; reflexivity.
Qed.
(** Four chunks appended to the file of three. *)
Example C106_append_case : file_dag (tri false three) three /\ exists r b w', trickle_append 9 9 (two_links false) false (map EvData four) (tri false three) shop = (Ok r, b, w').
Proof.
  split.
  - eapply proj1, (imported_facts true (two_links false)). apply tri_imported; [vm_compute; reflexivity|discriminate|cbn; lia|reflexivity].
  - apply ok_some. vm_compute. reflexivity.
Qed.
