(** Property C77: publishing a tree of files and finding it again. *)
From Verif Require Import Base Dag Builder SpecHash SpecHamt HamtWitness WalkWitness Directory SpecDir DirExec DirWitness Resolve SpecTree TreeProofs TreeWitness.

(** C77: from the root of a published tree every path leads to what is at that path of the
    tree - the bytes of the file, the target of the link, the names of the directory - and a
    path that is not in the tree is reported as missing. Whatever the layouts, parameters
    and chunks of the files, the histories and thresholds of the directories and the forms
    they ended in, and whatever else has been added since. *)
Theorem C77_tree_found : forall hash n W, (2 <= n)%nat -> (forall k, length (hash k) = n) -> valid_width W ->
  forall (path : list bytes) t w nd w', publishes hash W t w nd w' -> ~ unreachable w' -> Forall (fun k : bytes => k <> []) path -> outcome hash w' nd path (at_path t path).
Proof. exact tree_found. Qed.
Print Assumptions C77_tree_found.

(** C77: every tree whose directories have different, non-empty names can be published. *)
Theorem C77_tree_published : forall hash n W, (2 <= n)%nat -> (forall k, length (hash k) = n) -> valid_width W ->
  forall t, well_named t -> forall w, (forall i, w_addok w i = true) -> exists nd w', publishes hash W t w nd w'.
Proof. exact tree_published. Qed.
Print Assumptions C77_tree_published.
Example C77_case : publishes hash8 256 tree5 good_store out_node wall /\ ~ unreachable wall /\ sharded (fst (dstate win out_hist)) = true /\
  at_path tree5 [nb; nc] = Some (TFile (concat chunks5)) /\ at_path tree5 [na; nc] = None /\ (1 < length (node_links (nodeof imp1)))%nat.
Proof. exact tree5_case. Qed.
