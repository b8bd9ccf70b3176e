(** Property C105. *)
From Verif Require Import Base Pb FSNode Dag Builder Balanced Trickle Importer SpecFile AppendRun SpecShare ShareProofs.

(** C105: files share the blocks of the data they have in common. The leaf that holds a
    chunk depends on the chunk, the layout, the CID builder and whether leaves are raw, not on
    the file it is part of or the number of links of a node. *)
Theorem C105_leaves : forall trickle raw b, exists leaf : bytes -> node, forall dbp chunks root, pr_raw dbp = raw -> pr_builder dbp = b ->
  imported trickle dbp chunks root -> leaves root = map leaf chunks /\ forall c, In c chunks -> file_dag (leaf c) [c].
Proof. exact share_leaves. Qed.
Print Assumptions C105_leaves.

(** Raw leaves do not depend on the layout either. *)
Theorem C105_raw : forall trickle dbp chunks root, pr_raw dbp = true -> imported trickle dbp chunks root ->
  leaves root = map (NRaw (raw_prefix (pr_builder dbp))) chunks.
Proof. exact share_raw. Qed.
Print Assumptions C105_raw.

(** So two files with a common chunk share a block that holds it. *)
Theorem C105_chunk : forall t1 t2 p1 p2 cs1 cs2 r1 r2 c, pr_raw p1 = pr_raw p2 -> pr_builder p1 = pr_builder p2 -> (t1 = t2 \/ pr_raw p1 = true) ->
  imported t1 p1 cs1 r1 -> imported t2 p2 cs2 r2 -> In c cs1 -> In c cs2 -> exists m, reach r1 m /\ reach r2 m /\ file_dag m [c].
Proof. exact share_chunk. Qed.
Print Assumptions C105_chunk.

(** With the balanced layout and [k] links per node, two files that have the same [k ^ d]
    chunks at offsets that are multiples of [k ^ d] (not necessarily the same ones) share the
    complete tree of these chunks ... *)
Theorem C105_run : forall p1 p2 cs1 cs2 r1 r2 d pre1 pre2 cs post1 post2, 2 <= pr_maxlinks p1 -> pr_maxlinks p1 = pr_maxlinks p2 -> pr_raw p1 = pr_raw p2 -> pr_builder p1 = pr_builder p2 ->
  imported false p1 cs1 r1 -> imported false p2 cs2 r2 -> cs1 = pre1 ++ cs ++ post1 -> cs2 = pre2 ++ cs ++ post2 ->
  zlen cs = pr_maxlinks p1 ^ Z.of_nat d -> (exists j, zlen pre1 = j * pr_maxlinks p1 ^ Z.of_nat d) -> (exists j, zlen pre2 = j * pr_maxlinks p1 ^ Z.of_nat d) ->
  exists m, reach r1 m /\ reach r2 m /\ perfect (pr_maxlinks p1) d m /\ file_dag m cs.
Proof. exact share_run. Qed.
Print Assumptions C105_run.

(** ... and this tree is what importing these chunks alone gives. *)
Theorem C105_whole : forall p1 p2 whole root cs sub d pre post, 2 <= pr_maxlinks p1 -> pr_maxlinks p1 = pr_maxlinks p2 -> pr_raw p1 = pr_raw p2 -> pr_builder p1 = pr_builder p2 ->
  imported false p1 whole root -> imported false p2 cs sub -> whole = pre ++ cs ++ post ->
  zlen cs = pr_maxlinks p1 ^ Z.of_nat d -> (exists j, zlen pre = j * pr_maxlinks p1 ^ Z.of_nat d) -> reach root sub.
Proof. exact share_whole. Qed.
Print Assumptions C105_whole.

(** With leaves that are not raw the two layouts need not share any block: their leaves have
    different types. *)
Theorem C105_layouts_refuted : exists dbp chunks r1 r2, imported false dbp chunks r1 /\ imported true dbp chunks r2 /\ forall m, reach r1 m -> ~ reach r2 m.
Proof. exact layouts_refuted. Qed.
Print Assumptions C105_layouts_refuted.

(** Without the alignment only leaves are shared: one more chunk at the start of a file
    changes all its inner nodes. *)
Theorem C105_shift_refuted : exists dbp c chunks r1 r2, (4 <= length chunks)%nat /\ imported false dbp chunks r1 /\ imported false dbp (c :: chunks) r2 /\
  forall m, reach r1 m -> reach r2 m -> node_links m = [].
Proof. exact shift_refuted. Qed.
Print Assumptions C105_shift_refuted.

(** Four chunks, at different aligned offsets of two files, and alone; the layouts. *)
Example C105_cases : forall raw,
  (let cs1 := [[x7a]; [x7a]; [x79]; [x79]] ++ four ++ [[x7a]] in let cs2 := [] ++ four ++ [[x61]; [x62]; [x63]] in
   2 <= pr_maxlinks (two_links raw) /\ imported false (two_links raw) cs1 (bal raw cs1) /\ imported false (two_links raw) cs2 (bal raw cs2) /\ imported false (two_links raw) four (bal raw four) /\
   zlen four = pr_maxlinks (two_links raw) ^ Z.of_nat 2 /\ zlen [[x7a]; [x7a]; [x79]; [x79]] = 1 * pr_maxlinks (two_links raw) ^ Z.of_nat 2) /\
  imported true (two_links raw) four (tri raw four).
Proof.
  intros raw. cbv zeta. split; [|destruct raw; (apply tri_imported; [vm_compute; reflexivity|discriminate|cbn; lia|reflexivity])].
  split; [cbn; lia|]. repeat (split; [destruct raw; (apply bal_imported; [vm_compute; reflexivity|discriminate|reflexivity])|]). split; reflexivity.
Qed.
