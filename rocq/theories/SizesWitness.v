(** Consequences of and a counterexample to exact link sizes. *)
From Verif Require Import Base Pb FSNode Dag DagProofs Builder Importer Reader Modifier SpecFile SpecModifier
  BuilderProofs AppendRun ReaderWitness ModifierProofs ModifierRun ModifierFacts SizesProofs.

Lemma imports_fine : forall root,
  (exists fuel dbp fi spl w w', balanced_import fuel dbp fi spl w = (Ok root, w')) \/
  (exists fuel dbp fi spl w w', trickle_import fuel dbp fi spl w = (Ok root, w')) ->
  tsizes_exact root /\ canonical_leaves root.
Proof. intros root [(f & d & i & s & w & w' & H)|(f & d & i & s & w & w' & H)]; [eapply balanced_fine, H|eapply trickle_fine, H]. Qed.
Lemma appended_fine : forall fuel rfuel dbp fi spl base w r base' w',
  tsizes_exact base -> canonical_leaves base ->
  trickle_append fuel rfuel dbp fi spl base w = (r, base', w') ->
  (tsizes_exact base' /\ canonical_leaves base') /\ (forall root, r = Ok root -> tsizes_exact root /\ canonical_leaves root).
Proof. intros fuel rfuel dbp fi spl base w r base' w' H1 H2 E. pose proof (append_fine fuel rfuel dbp fi spl base w (conj H1 H2)) as H. rewrite E in H. exact H. Qed.
Lemma true_size : forall n split wbsize w ops k s',
  (exists fuel dbp fi spl w0 w1, balanced_import fuel dbp fi spl w0 = (Ok n, w1)) \/
  (exists fuel dbp fi spl w0 w1, trickle_import fuel dbp fi spl w0 = (Ok n, w1)) ->
  mGetNode split (mod_history split wbsize ops (NewDagModifier n, w)) = (Ok k, s') ->
  node_size k = mod64 (cumulative k).
Proof.
  intros n split wbsize w ops k s' Hi E. destruct (imports_fine n Hi) as (H1 & H2). apply fine_size. eapply history_fine; eassumption.
Qed.

(** Leaf "abc" whose type is encoded in two bytes instead of one. *)
Definition wide_leaf : node := NProto pbp [x08; x82; x00; x12; x03; x61; x62; x63; x18; x03] [].
Definition wide : node := NProto pbp [x08; x02; x18; x03; x20; x03] [nolink wide_leaf].
Definition narrow_leaf : node := NProto pbp [x08; x02; x12; x03; x61; x58; x63; x18; x03] [].
Definition stale : node := NProto pbp [x08; x02; x18; x03; x20; x03] [mkLink [] (node_size wide_leaf) narrow_leaf].
Lemma sizes_refuted : exists split wbsize b off n w k s',
  tsizes_exact n /\ (exists c, file_content n c) /\ write_back split wbsize b off n w = (Ok k, s') /\ ~ tsizes_exact k.
Proof.
  exists bytewise, wb, [x58], 1, wide, full, stale, (snd (write_back bytewise wb [x58] 1 wide full)). split; [|split; [|split]].
  - apply tsizes_node. apply Forall_cons; [split; [vm_compute; reflexivity|]|apply Forall_nil]. apply tsizes_node. apply Forall_nil.
  - exists [x61; x62; x63]. exists [[x61; x62; x63]]. split; [|reflexivity].
    change [[x61; x62; x63]] with (concat [[[x61; x62; x63]]]).
    eapply fd_node with (fs := mkData (Some 2) None (Some 3) [3] None None []); try (vm_compute; reflexivity).
    + discriminate.
    + repeat constructor.
    + now left.
    + cbn [map lto nolink]. apply Forall2_cons; [|apply Forall2_nil]. change [x61; x62; x63] with (getData (mkData (Some 2) (Some [x61; x62; x63]) (Some 3) [] None None [])).
      apply fd_leaf; [vm_compute; reflexivity|now left|reflexivity|vm_compute; reflexivity].
  - replace (Ok stale) with (fst (write_back bytewise wb [x58] 1 wide full)) by (vm_compute; reflexivity). apply surjective_pairing.
  - intros H. specialize (H stale (mkLink [] (node_size wide_leaf) narrow_leaf) (reach_self _) (or_introl eq_refl)). vm_compute in H. discriminate H.
Qed.
