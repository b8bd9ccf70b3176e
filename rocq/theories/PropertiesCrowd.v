(** Properties C84, C85: names with the same hash, for the hash function the package uses. *)
From Verif Require Import Base Dag Builder Hamt SpecHamt HamtExec HamtFacts SpecHash HamtWitness HashProofs Directory SpecDir DirExec DirWitness Murmur MurmurProofs Crowd.

(** The model of the hash function on the test vectors of its library: the first half of the
    128-bit values of "hello", "hello, world" and "19 Jan 2038 at 3:14:07 AM". *)
Example murmur_vectors :
  murmur3Hash [x68; x65; x6c; x6c; x6f] = [xcb; xd8; xa7; xb3; x41; xbd; x9b; x02] /\
  murmur3Hash [x68; x65; x6c; x6c; x6f; x2c; x20; x77; x6f; x72; x6c; x64] = [x34; x2f; xac; x62; x3a; x5e; xbc; x8e] /\
  murmur3Hash [x31; x39; x20; x4a; x61; x6e; x20; x32; x30; x33; x38; x20; x61; x74; x20; x33; x3a; x31; x34; x3a; x30; x37; x20; x41; x4d] = [xb8; x9e; x59; x88; xb7; x37; xaf; xfc].
Proof. vm_compute. repeat split. Qed.

(** Hashes have eight bytes, so that everything proved about sharded directories for hashes of
    a fixed length holds of the function the package uses. *)
Theorem C84_hash_length : forall k, length (murmur3Hash k) = 8%nat.
Proof. exact murmur_length. Qed.
Print Assumptions C84_hash_length.

(** C84 is false. For every name of at least 16 bytes there is another of the same length
    such that no sharded directory, of whatever width, ever contains both, and while it
    contains the first, setting the second fails. *)
Theorem C84_every_long_name_refuted : forall k, (16 <= length k)%nat -> exists k', length k' = length k /\ k' <> k /\
  forall W b s w d, valid_width W -> reached murmur3Hash W b s w d ->
    (d k = None \/ d k' = None) /\
    (d k <> None -> (forall x, w_getok w x = true) -> forall l, fst (SetLink murmur3Hash w k' l s) = Err ETooDeep).
Proof. exact twin. Qed.
Print Assumptions C84_every_long_name_refuted.
(** For example annual-report.md and cA0XXthRHEb5o6vR. *)
Theorem C84_two_names_refuted : report <> other /\ murmur3Hash report = murmur3Hash other.
Proof. exact other_hash. Qed.
Print Assumptions C84_two_names_refuted.
Theorem C84_same_hash_refused : forall k k' W b s w d l, k <> k' -> murmur3Hash k = murmur3Hash k' -> k' <> [] -> valid_width W -> reached murmur3Hash W b s w d -> d k <> None -> (forall x, w_getok w x = true) ->
  fst (SetLink murmur3Hash w k' l s) = Err ETooDeep.
Proof. exact refused. Qed.
Print Assumptions C84_same_hash_refused.
(** What holds: with the default width a name fits unless a name of the directory has the
    same hash. *)
Theorem C84_other_hashes_partial : forall k W b s w d l, W = 256 -> reached murmur3Hash W b s w d -> k <> [] -> (forall x, w_getok w x = true) -> (forall k', d k' <> None -> k' <> k -> murmur3Hash k' <> murmur3Hash k) ->
  fst (SetLink murmur3Hash w k l s) = Ok tt.
Proof. exact apart. Qed.
Print Assumptions C84_other_hashes_partial.
Example C84_case : valid_width 256 /\ reached murmur3Hash 256 None report_shard report_world report_dir /\ report_dir report <> None /\ (forall x, w_getok report_world x = true) /\ other <> [] /\ (16 <= length report)%nat.
Proof. exact report_case. Qed.

(** C85 is false: with one threshold throughout, a directory that contains two names with the
    same hash is always smaller than the threshold (for every hash function). *)
Theorem C85_crowded_small : forall hash n W, (2 <= n)%nat -> (forall k, length (hash k) = n) -> valid_width W ->
  forall b T d0 w cs h st z, 0 < T -> NewDirectory b = Ok d0 -> named_dops (map snd cs) -> Forall (fun c => fst c = T) cs -> drun hash W false (d0, w) cs h st ->
  crowded hash (usable n W) (dcontents dempty h) -> has_size (dcontents dempty h) z -> z < T.
Proof. exact crowded_small. Qed.
Print Assumptions C85_crowded_small.
Theorem C85_cannot_grow_refuted : forall W b T d0 w cs h st z, valid_width W -> 0 < T -> NewDirectory b = Ok d0 -> named_dops (map snd cs) -> Forall (fun c => fst c = T) cs ->
  drun murmur3Hash W false (d0, w) cs h st -> dcontents dempty h report <> None -> dcontents dempty h other <> None -> has_size (dcontents dempty h) z -> z < T.
Proof. exact stuck. Qed.
Print Assumptions C85_cannot_grow_refuted.
(** Such directories exist: both names are accepted, and then every AddChild that would
    reach the threshold fails, whatever its name, and changes nothing. *)
Theorem C85_no_third_entry_refuted : exists st, drun murmur3Hash 256 false (dnew, good_store) pair_ops (fst pair_dir) st /\ map q_res (fst pair_dir) = [Ok VUnit; Ok VUnit] /\
  forall r st', dAddChild murmur3Hash 256 false 130 na ra st r st' -> r = Err ETooDeep /\ st' = st.
Proof. exact no_third. Qed.
Print Assumptions C85_no_third_entry_refuted.
(** What holds: a directory is sharded only if its names can be kept apart; see C39 and C41 for
    growing then. *)
Theorem C85_sharded_apart : forall hash n W, (2 <= n)%nat -> (forall k, length (hash k) = n) -> valid_width W ->
  forall b x w d, dreached hash W b (x, w) d -> crowded hash (usable n W) d -> sharded x = false.
Proof. exact crowded_basic. Qed.
Print Assumptions C85_sharded_apart.
Example C85_case : valid_width 256 /\ NewDirectory None = Ok dnew /\ named_dops (map snd pair_ops) /\ Forall (fun c => fst c = 130) pair_ops /\
  drun murmur3Hash 256 false (dnew, good_store) pair_ops (fst pair_dir) (snd pair_dir) /\ dcontents dempty (fst pair_dir) report <> None /\ dcontents dempty (fst pair_dir) other <> None.
Proof. split; [exact width256|]. split; [exact dnew_ok|]. split; [repeat constructor; discriminate|]. split; [repeat constructor|]. split; [exact pair_run|]. split; vm_compute; discriminate. Qed.
