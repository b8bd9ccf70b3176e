(** Property C103: the same tree of files gets the same root, and different trees get
    different roots. *)
From Verif Require Import Base Dag Builder SpecHash SpecHamt HamtWitness WalkWitness Directory SpecDir DirExec DirWitness TreeWitness SpecTree SpecRoots RootsProofs RootsWitness.

(** C103: two publications of the same tree with the same settings get the same root,
    whatever is in the two stores, in whatever order the entries are published and added,
    whatever else is added meanwhile, and however the operations of the directories are
    scheduled; as long as no directory falls from the threshold to below it. *)
Theorem C103_same_root : forall hash n W, (2 <= n)%nat -> (forall k, length (hash k) = n) -> valid_width W ->
  forall trickle dbp split lp b T, 0 < T -> forall t1 w1 n1 w1' t2 w2 n2 w2', same_tree t1 t2 ->
  ingests hash W trickle dbp split lp b T t1 w1 n1 w1' -> ingests hash W trickle dbp split lp b T t2 w2 n2 w2' -> n1 = n2.
Proof. exact same_root. Qed.
Print Assumptions C103_same_root.
(** Such publications are publications in the sense of C77. *)
Theorem C103_published : forall hash W trickle dbp split lp b T, (forall c, concat (split c) = c) ->
  forall t w nd w', ingests hash W trickle dbp split lp b T t w nd w' -> publishes hash W t w nd w'.
Proof. exact ingest_publishes. Qed.
Print Assumptions C103_published.
(** Adding different names and removing nothing, with any number of failed attempts and
    lookups in between, never makes a directory fall below a threshold. *)
Theorem C103_adding_keeps : forall T h, no_removal h -> NoDup (added_names h) -> keeps T dempty h.
Proof. exact adding_keeps_new. Qed.
Print Assumptions C103_adding_keeps.
Example C103_case : (forall c, concat (pairs c) = c) /\ ingests hash8 256 false small pairs v0prefix None 50 tree6a good_store root6a end6a /\ ingests hash8 256 false small pairs v0prefix None 50 tree6b end6a root6b end6b /\ same_tree tree6a tree6b /\
  sharded (fst (dstate store6a hist6a)) = true /\ sharded (fst (dstate (link6 end6a) hin6)) = false /\ (1 < length (node_links (nodeof (files6 good_store))))%nat.
Proof. exact case6. Qed.
Example C103_adding_case : no_removal (fst (dpath store6a hist6a)) /\ NoDup (added_names (fst (dpath store6a hist6a))) /\ added_names (fst (dpath store6a hist6a)) = [na; nb].
Proof. exact adding6. Qed.

(** C103: the root determines the tree. Two publications that end at the same root in one
    store are publications of the same tree, whatever the settings of either. *)
Theorem C103_same_tree : forall hash n W, (2 <= n)%nat -> (forall k, length (hash k) = n) -> valid_width W ->
  forall t1 t2 w1 w2 nd w, publishes hash W t1 w1 nd w -> publishes hash W t2 w2 nd w -> ~ unreachable w -> well_named t1 -> well_named t2 -> same_tree t1 t2.
Proof. exact same_content. Qed.
Print Assumptions C103_same_tree.
Example C103_same_tree_case : publishes hash8 256 tree6a good_store root6a end6b /\ publishes hash8 256 tree6b end6a root6a end6b /\ ~ unreachable end6b /\ well_named tree6a /\ well_named tree6b /\ tree6a <> tree6b.
Proof. exact common6. Qed.
