(** Property C97: saved versions of a sharded directory share the shards off the changed paths. *)
From Verif Require Import Base Dag DagProofs Builder Hamt SpecHash SpecHamt HamtExec HamtNode HamtRun HamtFacts HamtWitness SpecPath SpecSharing PathProofs SharingProofs SharingWrites PropertiesPath.

(** Two saved directories whose contents agree but for the names of [K]: every shard of the
    first that is on the path of no name of [K] is a shard of the second, on the same paths.
    This is whatever the two histories were. *)
Theorem C97_shared : forall hash n W b, (2 <= n)%nat -> (forall k, length (hash k) = n) -> valid_width W ->
  forall K s w d nd w1 s' w' d' nd' w1' k m, reached hash W b s w d -> Node s w = (Ok nd, w1) -> reached hash W b s' w' d' -> Node s' w' = (Ok nd', w1') ->
  (forall k1, ~ K k1 -> d k1 = d' k1) -> on_path hash W k 0 nd m -> ~ on_paths hash W K nd m -> on_path hash W k 0 nd' m.
Proof. exact saved_shared. Qed.
Print Assumptions C97_shared.
(** A saved directory is loaded, operations on names are done, and it is saved again. All
    blocks written meanwhile are the new root, shards on the paths of these names, and the
    nodes the client gave to store. *)
Theorem C97_written : forall hash n W b, (2 <= n)%nat -> (forall k, length (hash k) = n) -> valid_width W ->
  forall s w d nd w1 s' w2 g ops s2 w3 nd2 w4, reached hash W b s w d -> Node s w = (Ok nd, w1) -> NewHamtFromDag nd = Ok s' -> wext w1 w2 -> named_ops ops -> (forall op, In op ops -> hname op <> None) ->
  snd (hrun hash ops (s', with_faults g w2)) = (s2, w3) -> Node s2 w3 = (Ok nd2, w4) ->
  exists added, w_added w4 = w_added w2 ++ added /\
    forall m o, In (m, o) added -> m = nd2 \/ on_paths hash W (names_of ops) nd2 m \/ exists op, In op ops /\ given op = Some m.
Proof. intros hash n W b Hn Hh Hv s w d nd w1 s' w2 g ops s2 w3 nd2 w4 H1 H2 H3 H4 H5 H6 H7 H8. exact (proj1 (save_facts hash n W b Hn Hh Hv s w d nd w1 s' w2 g ops s2 w3 nd2 w4 H1 H2 H3 H4 H5 H6 H7 H8)). Qed.
Print Assumptions C97_written.
(** These shards are few: for every operation at most one for every [log2 W] bits of the hash. *)
Theorem C97_few : forall hash n W b, (2 <= n)%nat -> (forall k, length (hash k) = n) -> valid_width W ->
  forall s w d nd w1 s' w2 g ops s2 w3 nd2 w4, reached hash W b s w d -> Node s w = (Ok nd, w1) -> NewHamtFromDag nd = Ok s' -> wext w1 w2 -> named_ops ops -> (forall op, In op ops -> hname op <> None) ->
  snd (hrun hash ops (s', with_faults g w2)) = (s2, w3) -> Node s2 w3 = (Ok nd2, w4) ->
  exists ms, (forall m, on_paths hash W (names_of ops) nd2 m <-> In m ms) /\ Z.of_nat (length ms) * Z.log2 W <= Z.of_nat (length ops) * (8 * Z.of_nat n - Z.log2 W).
Proof. intros hash n W b Hn Hh Hv s w d nd w1 s' w2 g ops s2 w3 nd2 w4 H1 H2 H3 H4 H5 H6 H7 H8. exact (proj1 (proj2 (save_facts hash n W b Hn Hh Hv s w d nd w1 s' w2 g ops s2 w3 nd2 w4 H1 H2 H3 H4 H5 H6 H7 H8))). Qed.
Print Assumptions C97_few.
(** And the new version keeps every shard of the old one that is on no path of these names,
    also if blocks were missing and operations failed. *)
Theorem C97_kept : forall hash n W b, (2 <= n)%nat -> (forall k, length (hash k) = n) -> valid_width W ->
  forall s w d nd w1 s' w2 g ops s2 w3 nd2 w4, reached hash W b s w d -> Node s w = (Ok nd, w1) -> NewHamtFromDag nd = Ok s' -> wext w1 w2 -> named_ops ops -> (forall op, In op ops -> hname op <> None) ->
  snd (hrun hash ops (s', with_faults g w2)) = (s2, w3) -> Node s2 w3 = (Ok nd2, w4) ->
  forall k m, on_path hash W k 0 nd m -> ~ on_paths hash W (names_of ops) nd m -> on_path hash W k 0 nd2 m.
Proof. intros hash n W b Hn Hh Hv s w d nd w1 s' w2 g ops s2 w3 nd2 w4 H1 H2 H3 H4 H5 H6 H7 H8. exact (proj2 (proj2 (save_facts hash n W b Hn Hh Hv s w d nd w1 s' w2 g ops s2 w3 nd2 w4 H1 H2 H3 H4 H5 H6 H7 H8))). Qed.
Print Assumptions C97_kept.

(** The directory of C86_case with its two sub-shards: a node is stored under a new
    name of the first one, which moves one of its entries to a third, and that entry is
    changed, while the second sub-shard cannot be fetched. It is kept, and not written: the
    blocks written are the given node, the two shards on the path (by their own Node call and
    by that of their parent), and the root. *)
Definition five_ops : list hop := [HSet [x61; x61; x61] (rawn x09); HFind na; HSetLink na (lnk x07)].
Definition five := hrun hash8 five_ops (four_loaded, four_world).
Definition five_saved := Node (fst (snd five)) (snd (snd five)).
Definition five_root : node := match fst five_saved with Ok nd => nd | _ => rawn x00 end.
Definition five_new : node := match node_links five_root with l :: _ => lto l | _ => rawn x00 end.
Definition five_deep : node := match node_links five_new with l :: _ => lto l | _ => rawn x00 end.
Example C97_case : Node (fst (snd five)) (snd (snd five)) = (Ok five_root, snd five_saved) /\ map o_res (fst five) = [Ok VUnit; Ok (VEntry (1, rawn x01)); Ok VUnit] /\
  map fst (skipn (length (w_added four_world)) (w_added (snd five_saved))) = [rawn x09; five_deep; five_deep; five_new; five_new; five_root] /\
  map lto (node_links five_root) = [five_new; four_lost] /\ node_eqb five_new (lto (nth 0 (node_links four_root) (lnk x00))) = false.
Proof. split; [vm_compute; reflexivity|]. split; [vm_compute; reflexivity|]. split; [vm_compute; reflexivity|]. split; vm_compute; reflexivity. Qed.
