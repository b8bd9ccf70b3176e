(** Properties C14, C15, C54 and the append parts of C09, C10, C11. *)
From Verif Require Import Base Pb FSNode Dag Builder Balanced Trickle Importer SpecFile SpecAppend SpecReader ImportProofs AppendRun.

(** A trickle file of ten chunks with two links per node, and what is appended to it. *)
Definition ten : list bytes := map (fun b => [b]) [x61; x62; x63; x64; x65; x66; x67; x68; x69; x6a].
Definition more : list bytes := [[x6b; x6c]; [x6d]; [x6e]].
Definition ten_import := trickle_import 20 (limit 2) false (map EvData ten) astore.
Definition ten_base := ok_node (fst ten_import).

(** C14: appending to a file that is [appendable] (its data is in its links; on the
    rightmost path, a node with more links than the limit ends in such a node): old
    content, then the chunks. (Missing for the full claim: other bases, refuted below.) *)
Theorem C14_append_content_partial : forall fuel rfuel dbp fi spl base w root base' w' old,
  1 <= pr_maxlinks dbp -> (length spl < fuel)%nat -> (height base <= rfuel)%nat ->
  file_content base old -> appendable (pr_maxlinks dbp) base ->
  trickle_append fuel rfuel dbp fi spl base w = (Ok root, base', w') ->
  exists chunks, spl = map EvData chunks /\ source_ok BlockSizeLimit chunks /\ base' = root /\
    file_content root (old ++ concat chunks) /\
    (zlen (old ++ concat chunks) < 18446744073709551616 -> recorded_size root (zlen (old ++ concat chunks))) /\
    (tsizes_exact base -> tsizes_exact root) /\ node_prefix root = node_prefix base.
Proof. exact append_content. Qed.
Print Assumptions C14_append_content_partial.

(** The append ends with a result or an error, and succeeds if nothing fails. *)
Theorem C14_append_total_partial : forall fuel rfuel dbp fi spl base w old,
  1 <= pr_maxlinks dbp -> (length spl < fuel)%nat -> (height base <= rfuel)%nat ->
  file_content base old -> appendable (pr_maxlinks dbp) base ->
  (exists root, fst (fst (trickle_append fuel rfuel dbp fi spl base w)) = Ok root) \/
  (exists e, fst (fst (trickle_append fuel rfuel dbp fi spl base w)) = Err e).
Proof. exact append_total. Qed.
Print Assumptions C14_append_total_partial.
Theorem C14_append_succeeds_partial : forall fuel rfuel dbp fi chunks base w old,
  1 <= pr_maxlinks dbp -> (length chunks < fuel)%nat -> (height base <= rfuel)%nat ->
  file_content base old -> appendable (pr_maxlinks dbp) base ->
  source_ok BlockSizeLimit chunks -> can_add w -> serves w -> below_available w base -> (pr_nocopy dbp = true -> fi = true) ->
  exists root w', trickle_append fuel rfuel dbp fi (map EvData chunks) base w = (Ok root, root, w').
Proof. exact append_succeeds. Qed.
Print Assumptions C14_append_succeeds_partial.

(** Which files are appendable: those with (loose) trickle shape, and balanced imports
    of more than one block. *)
Theorem C14_trickle_appendable : forall k raw e n, 1 <= k -> loose_file k 4 raw e (-1) n -> appendable k n.
Proof. exact loose_file_appendable. Qed.
Print Assumptions C14_trickle_appendable.
Theorem C14_balanced_appendable : forall fuel dbp fi spl w root w',
  balanced_import fuel dbp fi spl w = (Ok root, w') -> node_links root <> [] -> appendable (pr_maxlinks dbp) root.
Proof. exact balanced_appendable. Qed.
Print Assumptions C14_balanced_appendable.

(** A trickle import followed by any number of appends. *)
Theorem C14_history : forall dbp root hist, 1 <= pr_maxlinks dbp -> history dbp root hist ->
  file_content root (concat (concat hist)) /\ tsizes_exact root /\
  (zlen (concat (concat hist)) < 18446744073709551616 -> recorded_size root (zlen (concat (concat hist)))) /\
  forall e, verifiable_prefix (pr_raw dbp) (pr_builder dbp) e -> loose_file (pr_maxlinks dbp) 4 (pr_raw dbp) e (-1) root.
Proof. exact history_file. Qed.
Print Assumptions C14_history.

Example C14_case : exists root w', ten_import = (Ok ten_base, snd ten_import) /\
  (length (map EvData more) < 9)%nat /\ (height ten_base <= 9)%nat /\
  trickle_append 9 9 (limit 2) false (map EvData more) ten_base (snd ten_import) = (Ok root, root, w') /\
  tree_read root = Some [x61; x62; x63; x64; x65; x66; x67; x68; x69; x6a; x6b; x6c; x6d; x6e] /\
  length (node_links root) = 7%nat /\ history (limit 2) root [ten; more].
Proof.
  eexists _, _.
  split; [vm_compute; reflexivity|]. split; [apply Nat.leb_le; vm_compute; reflexivity|].
  split; [apply Nat.leb_le; vm_compute; reflexivity|]. split; [vm_compute; reflexivity|].
  split; [vm_compute; reflexivity|]. split; [vm_compute; reflexivity|].
  apply (h_append (limit 2) 9 9 false more ten_base [ten] (snd ten_import) _
    (snd (fst (trickle_append 9 9 (limit 2) false (map EvData more) ten_base (snd ten_import))))
    (snd (trickle_append 9 9 (limit 2) false (map EvData more) ten_base (snd ten_import)))).
  - apply (h_import (limit 2) 20 false ten astore ten_base (snd ten_import)); [apply Nat.leb_le|]; vm_compute; reflexivity.
  - apply Nat.leb_le. vm_compute. reflexivity.
  - apply Nat.leb_le. vm_compute. reflexivity.
  - vm_compute. reflexivity.
Qed.

(** C14 is false for a file of one block that holds its data itself, as imported by
    the balanced layout without raw leaves: the old data is no longer read, though
    it is counted in the size. *)
Theorem C14_append_inline_refuted : exists dbp base w root w',
  balanced_import 9 dbp false (map EvData [[x61; x62]]) astore = (Ok base, w) /\
  file_content base [x61; x62] /\
  trickle_append 9 9 dbp false (map EvData [[x63]]) base w = (Ok root, root, w') /\
  tree_bytes root [x63] /\ recorded_size root 3.
Proof. exact append_inline_refuted. Qed.
Print Assumptions C14_append_inline_refuted.

(** C14 is false if the link limit is smaller than when the base was built: a data
    leaf is given links, and its data is no longer read. *)
Theorem C14_append_limit_refuted : exists base w root w',
  trickle_import 9 (limit 3) false (map EvData [[x61]; [x62]; [x63]]) astore = (Ok base, w) /\
  file_content base [x61; x62; x63] /\
  trickle_append 9 9 (limit 2) false (map EvData [[x64]]) base w = (Ok root, root, w') /\
  tree_bytes root [x61; x62; x64] /\ recorded_size root 4.
Proof. exact append_limit_refuted. Qed.
Print Assumptions C14_append_limit_refuted.

(** C09 for Append. *)
Theorem C09_append_source_error : forall fuel rfuel dbp fi spl base w old e,
  1 <= pr_maxlinks dbp -> (length spl < fuel)%nat -> (height base <= rfuel)%nat ->
  file_content base old -> appendable (pr_maxlinks dbp) base ->
  In (EvErr e) spl -> forall root, fst (fst (trickle_append fuel rfuel dbp fi spl base w)) <> Ok root.
Proof. exact append_source_error. Qed.
Print Assumptions C09_append_source_error.
Theorem C09_append_oversize : forall fuel rfuel dbp fi spl base w old x,
  1 <= pr_maxlinks dbp -> (length spl < fuel)%nat -> (height base <= rfuel)%nat ->
  file_content base old -> appendable (pr_maxlinks dbp) base ->
  In (EvData x) spl -> BlockSizeLimit < zlen x -> forall root, fst (fst (trickle_append fuel rfuel dbp fi spl base w)) <> Ok root.
Proof. exact append_oversize. Qed.
Print Assumptions C09_append_oversize.

Example C09_append_case : In (EvErr ESplit) (map EvData more ++ [EvErr ESplit]) /\
  fst (fst (trickle_append 9 9 (limit 2) false (map EvData more ++ [EvErr ESplit]) ten_base (snd ten_import))) = Err ESplit.
Proof. split; [apply in_or_app; right; left; reflexivity|vm_compute; reflexivity]. Qed.

(** C10 for Append: nothing is lost from the store, and every block below the new
    root is in the store or was below the old root. *)
Theorem C10_append_stored : forall fuel rfuel dbp fi spl base w root base' w' old,
  1 <= pr_maxlinks dbp -> (length spl < fuel)%nat -> (height base <= rfuel)%nat ->
  file_content base old -> appendable (pr_maxlinks dbp) base ->
  trickle_append fuel rfuel dbp fi spl base w = (Ok root, base', w') ->
  (forall m, stored w m = true -> stored w' m = true) /\
  forall l m, In l (node_links root) -> reach (lto l) m ->
    stored w' m = true \/ exists l0, In l0 (node_links base) /\ reach (lto l0) m.
Proof. exact append_stored. Qed.
Print Assumptions C10_append_stored.
(** The new root itself is not added. *)
Theorem C10_append_root_refuted : exists base w root w',
  trickle_import 9 (limit 1) false (map EvData [[x61]]) astore = (Ok base, w) /\
  trickle_append 9 9 (limit 1) false (map EvData [[x62]; [x63]]) base w = (Ok root, root, w') /\
  stored w' root = false.
Proof. exact append_root_refuted. Qed.
Print Assumptions C10_append_root_refuted.

(** C11 for Append: positions count from the start of the appended data. *)
Theorem C11_append_positions : forall fuel rfuel dbp fi spl base w root base' w' old,
  1 <= pr_maxlinks dbp -> (length spl < fuel)%nat -> (height base <= rfuel)%nat ->
  file_content base old -> appendable (pr_maxlinks dbp) base ->
  trickle_append fuel rfuel dbp fi spl base w = (Ok root, base', w') -> pr_nocopy dbp = true -> pr_raw dbp = true ->
  exists chunks added, spl = map EvData chunks /\ w_added w' = w_added w ++ added /\ filestore_refs added = positions 0 chunks.
Proof. exact append_positions. Qed.
Print Assumptions C11_append_positions.

Definition fs_params : params := mkParams 2 true None true.
Example C11_append_case : exists base w root w',
  trickle_import 20 fs_params true (map EvData ten) astore = (Ok base, w) /\
  trickle_append 9 9 fs_params true (map EvData more) base w = (Ok root, root, w') /\
  map snd (filestore_refs (skipn (length (w_added w)) (w_added w'))) = [0; 2; 3].
Proof. eexists _, _, _, _. split; [vm_compute; reflexivity|]. split; [vm_compute; reflexivity|]. vm_compute. reflexivity. Qed.

(** C15 is false: the base has exactly its direct leaves (here one per node); the
    sub-graphs appended are one level deeper than their layer. *)
Theorem C15_append_structure_refuted : exists base w root w',
  trickle_import 9 (limit 1) false (map EvData [[x61]]) astore = (Ok base, w) /\
  VerifyTrickleDagStructure w base (mkVparams 1 4 None false) = Ok tt /\
  trickle_append 9 9 (limit 1) false (map EvData [[x62]; [x63]]) base w = (Ok root, root, w') /\
  (forall l m, In l (node_links root) -> reach (lto l) m -> stored w' m = true) /\
  VerifyTrickleDagStructure w' root (mkVparams 1 4 None false) = Err EVerify.
Proof. exact append_structure_refuted. Qed.
Print Assumptions C15_append_structure_refuted.

(** What holds: direct leaves and block formats are those of a trickle file, and
    every sub-graph is at most one level deeper than its layer. This is kept by
    further appends. (Missing: the exact depth.) *)
Theorem C15_append_loose_partial : forall fuel rfuel dbp fi spl base w root base' w' old e,
  1 <= pr_maxlinks dbp -> (length spl < fuel)%nat -> (height base <= rfuel)%nat ->
  file_content base old -> verifiable_prefix (pr_raw dbp) (pr_builder dbp) e ->
  loose_file (pr_maxlinks dbp) 4 (pr_raw dbp) e (-1) base ->
  trickle_append fuel rfuel dbp fi spl base w = (Ok root, base', w') ->
  loose_file (pr_maxlinks dbp) 4 (pr_raw dbp) e (-1) root.
Proof. exact append_loose. Qed.
Print Assumptions C15_append_loose_partial.
Theorem C15_trickle_is_loose : forall k raw e D n, trickle_file k 4 raw e D n -> loose_file k 4 raw e D n.
Proof. exact file_is_loose. Qed.
Print Assumptions C15_trickle_is_loose.
(** As long as only direct leaves are needed the structure is exact. *)
Theorem C15_append_leaves_partial : forall fuel rfuel dbp fi spl base w root base' w' old e,
  1 <= pr_maxlinks dbp -> (length spl < fuel)%nat -> (height base <= rfuel)%nat ->
  file_content base old -> verifiable_prefix (pr_raw dbp) (pr_builder dbp) e ->
  loose_file (pr_maxlinks dbp) 4 (pr_raw dbp) e (-1) base ->
  trickle_append fuel rfuel dbp fi spl base w = (Ok root, base', w') ->
  zlen (node_links root) <= pr_maxlinks dbp ->
  trickle_file (pr_maxlinks dbp) 4 (pr_raw dbp) e (-1) root.
Proof. exact append_small. Qed.
Print Assumptions C15_append_leaves_partial.

Example C15_case : verifiable_prefix false None (Some v0prefix) /\
  trickle_file 2 4 false (Some v0prefix) (-1) ten_base /\ loose_file 2 4 false (Some v0prefix) (-1) ten_base.
Proof.
  assert (V : verifiable_prefix false None (Some v0prefix)) by (right; left; auto). split; [exact V|].
  assert (T : trickle_file 2 4 false (Some v0prefix) (-1) ten_base).
  { apply (trickle_is_file 20 (limit 2) false (map EvData ten) astore ten_base (snd ten_import) (Some v0prefix));
      [discriminate|apply Nat.leb_le|  |exact V]; vm_compute; reflexivity. }
  split; [exact T|]. now apply file_is_loose.
Qed.

(** C54 is false: a failed Append leaves the node it was given changed, with links
    that its recorded size does not count. *)
Theorem C54_append_failure_refuted : exists base w base' w',
  trickle_import 9 (limit 5) false (map EvData [[x61]; [x62]]) four_adds = (Ok base, w) /\
  trickle_append 9 9 (limit 5) false (map EvData [[x63]; [x64]; [x65]]) base w = (Err EAdd, base', w') /\
  tree_bytes base [x61; x62] /\ tree_bytes base' [x61; x62; x63; x64] /\ recorded_size base' 2.
Proof. exact append_failure_refuted. Qed.
Print Assumptions C54_append_failure_refuted.
