(** Property C86: the blocks that the operations of a saved sharded directory fetch. *)
From Verif Require Import Base Dag DagProofs Builder Hamt SpecHash SpecHamt HamtExec HamtNode HamtRun HamtFacts HamtWitness SpecPath PathProofs.

(** A directory is saved, its root is loaded again, and from then on the service may fail to
    deliver any blocks [g] says. Every operation gives the result it should give, and may fail
    to fetch only if a block on the path of its own name is missing; Node and listing,
    which have no name, only if some shard of the directory is missing. This holds in every
    state, however many operations went before. *)
Theorem C86_needed_blocks : forall hash n W b, (2 <= n)%nat -> (forall k, length (hash k) = n) -> valid_width W ->
  forall s w d nd w1 s' w2 g ops, reached hash W b s w d -> Node s w = (Ok nd, w1) -> NewHamtFromDag nd = Ok s' -> wext w1 w2 -> named_ops ops -> existsb is_reload ops = false ->
  conforms_by hash (usable n W) (needed_missing hash W nd (with_faults g w2)) d (fst (hrun hash ops (s', with_faults g w2))).
Proof. exact path_history. Qed.
Print Assumptions C86_needed_blocks.
(** In particular, operations on names whose paths are available never fail to fetch, whatever
    else is missing. *)
Theorem C86_other_blocks_missing : forall hash n W b, (2 <= n)%nat -> (forall k, length (hash k) = n) -> valid_width W ->
  forall s w d nd w1 s' w2 g ops, reached hash W b s w d -> Node s w = (Ok nd, w1) -> NewHamtFromDag nd = Ok s' -> wext w1 w2 -> named_ops ops ->
  (forall op, In op ops -> exists k, hname op = Some k /\ forall m, on_path hash W k 0 nd m -> g m = true) ->
  conforms hash (usable n W) False d (fst (hrun hash ops (s', with_faults g w2))).
Proof. exact path_available. Qed.
Print Assumptions C86_other_blocks_missing.
(** And the first lookup after loading needs all of them. *)
Theorem C86_exactly_these : forall hash n W b, (2 <= n)%nat -> (forall k, length (hash k) = n) -> valid_width W ->
  forall s w d nd w1 s' w2 g k, reached hash W b s w d -> Node s w = (Ok nd, w1) -> NewHamtFromDag nd = Ok s' -> wext w1 w2 -> k <> [] ->
  (fst (Find hash (with_faults g w2) k s') = Err EFetch <-> exists m, on_path hash W k 0 nd m /\ g m = false).
Proof. exact path_find. Qed.
Print Assumptions C86_exactly_these.
(** They are few: with the root, at most one for every [log2 W] bits of the hash. *)
Theorem C86_path_length : forall hash n W b, (2 <= n)%nat -> (forall k, length (hash k) = n) -> valid_width W ->
  forall s w d nd w1 k, reached hash W b s w d -> Node s w = (Ok nd, w1) ->
  exists ms, (forall m, on_path hash W k 0 nd m <-> In m ms) /\ (Z.of_nat (length ms) + 1) * Z.log2 W <= 8 * Z.of_nat n.
Proof. exact path_length. Qed.
Print Assumptions C86_path_length.

(** A directory with two sub-shards, one of which is missing. *)
Definition pa : bytes := [x62; x61].
Definition pb : bytes := [x62; x62].
Definition four_ops : list hop := [HSetLink na (lnk x01); HSetLink nb (lnk x02); HSetLink pa (lnk x03); HSetLink pb (lnk x04)].
Definition four := hrun hash8 four_ops (dir256, good_store).
Definition four_saved := Node (fst (snd four)) (snd (snd four)).
Definition four_root : node := match fst four_saved with Ok nd => nd | _ => rawn x00 end.
Definition four_loaded : shard := match NewHamtFromDag four_root with Ok s => s | _ => dir256 end.
Definition four_lost : node := match node_links four_root with [_; l] => lto l | _ => rawn x00 end.
Definition four_faults (m : node) : bool := negb (node_eqb m four_lost).
Definition four_world : world := with_faults four_faults (snd four_saved).
Example C86_case : reached hash8 256 None (fst (snd four)) (snd (snd four)) (contents dempty (fst four)) /\ Node (fst (snd four)) (snd (snd four)) = (Ok four_root, snd four_saved) /\
  NewHamtFromDag four_root = Ok four_loaded /\
  map o_res (fst (hrun hash8 [HFind na; HFind pb; HRemove nb; HFind pa; HFind na; HFind nb; HEach] (four_loaded, four_world))) =
    [Ok (VEntry (1, rawn x01)); Err EFetch; Ok VUnit; Err EFetch; Ok (VEntry (1, rawn x01)); Err ENotExist; Err EFetch].
Proof.
  split; [apply reached_by; [reflexivity|repeat constructor; discriminate]|]. split; [vm_compute; reflexivity|]. split; [vm_compute; reflexivity|]. vm_compute. reflexivity.
Qed.
Example C86_path_case : on_path hash8 256 pb 0 four_root four_lost /\ four_faults four_lost = false.
Proof.
  split; [|vm_compute; reflexivity]. refine (path_here hash8 256 pb 0 four_root (nth 1 (node_links four_root) (lnk x00)) _ _); [vm_compute; right; now left|]. vm_compute. split; reflexivity.
Qed.
