(** Theorems about the sharded directory (C29 - C36, C44, C57 - C59, C61). *)
From Verif Require Import Base Pb FSNode Dag HashBits Bitfield SpecHash HashProofs Hamt SpecHamt HamtExec HamtFacts HamtWitness HamtNames.

(** C29: a sequence of Next calls splits the bits of the hash, most significant first,
    into consecutive groups; a call fails exactly if fewer bits are left than asked
    for, and then the reader is as before. *)
Theorem C29_groups : forall h ws, Forall (fun i => 0 < i <= 62) ws -> sumZ ws <= 8 * zlen h ->
  next_all (mkHB h 0) ws = Ok (map bits_value (groups ws (all_bits h)), mkHB h (sumZ ws)).
Proof. exact next_groups. Qed.
Print Assumptions C29_groups.
Theorem C29_end : forall h ws i, Forall (fun i => 0 < i <= 62) ws -> sumZ ws <= 8 * zlen h -> 0 < i <= 62 ->
  exists vs hb, next_all (mkHB h 0) ws = Ok (vs, hb) /\
    (Next hb i = Err ETooDeep <-> 8 * zlen h < sumZ ws + i) /\
    (sumZ ws + i <= 8 * zlen h -> exists v hb', Next hb i = Ok (v, hb')).
Proof. exact next_fails. Qed.
Print Assumptions C29_end.
Example C29_case : Forall (fun i => 0 < i <= 62) [3; 8; 4] /\ sumZ [3; 8; 4] <= 8 * zlen [xa5; x3c] /\
  next_all (mkHB [xa5; x3c] 0) [3; 8; 4] = Ok ([5; 41; 14], mkHB [xa5; x3c] 15).
Proof. split; [repeat constructor; lia|]. split; [vm_compute; discriminate|]. vm_compute. reflexivity. Qed.

(** C30: exactly the valid widths are accepted, by NewShard and by NewHamtFromDag (for
    a shard node whose bitmap fits the width); slot names have a fixed length and are
    ordered like the slots. *)
Theorem C30_new_shard : forall v, (valid_width v -> exists s, NewShard v = Ok s /\ s_size s = v) /\ (~ valid_width v -> exists e, NewShard v = Err e).
Proof. exact NewShard_width. Qed.
Print Assumptions C30_new_shard.
Theorem C30_from_dag : forall p d ls fsn, FSNodeFromBytes d = Ok fsn -> getType fsn = THAMTShard -> getHashType fsn = HashMurmur3 -> 8 * zlen (getData fsn) <= getFanout fsn ->
  (valid_width (getFanout fsn) -> exists s, NewHamtFromDag (NProto p d ls) = Ok s /\ s_size s = getFanout fsn) /\
  (~ valid_width (getFanout fsn) -> exists e, NewHamtFromDag (NProto p d ls) = Err e).
Proof. exact from_dag_width. Qed.
Print Assumptions C30_from_dag.
Theorem C30_names : forall s i, 0 <= i < s_size s ->
  (0 < maxpadlen s)%nat /\ length (linkNamePrefix s i) = maxpadlen s /\ forall j, i < j < s_size s -> name_lt (linkNamePrefix s i) (linkNamePrefix s j).
Proof. exact slot_prefixes. Qed.
Print Assumptions C30_names.
Example C30_case : valid_width 256 /\ ~ valid_width 4 /\ ~ valid_width 2048 /\ ~ valid_width 24 /\ s_size dir256 = 256 /\
  linkNamePrefix dir256 10 = [x30; x41] /\ linkNamePrefix dir256 171 = [x41; x42].
Proof.
  split; [exact width256|]. split; [intros (_ & H & _); discriminate|]. split; [intros (_ & _ & H); now apply H|].
  split; [|vm_compute; auto]. intros H. apply NewShard_width in H as (s & H & _). vm_compute in H. discriminate.
Qed.
Example C30_dag_case : exists d fsn s, FSNodeFromBytes d = Ok fsn /\ getType fsn = THAMTShard /\ getHashType fsn = HashMurmur3 /\ getFanout fsn = 64 /\ 8 * zlen (getData fsn) <= getFanout fsn /\
  NewHamtFromDag (NProto v0prefix d []) = Ok s.
Proof. exact width64_case. Qed.

(** C31: the sharded directory is a map. [conforms] compares every result of a history
    with the map of the names set and not removed; [False] means that no fetch error is
    possible. Failing Adds are allowed and reported. *)
Theorem C31_map : forall hash n W b ops s w, (2 <= n)%nat -> (forall k, length (hash k) = n) -> valid_width W ->
  named_ops ops -> existsb is_reload ops = false -> new_dir W b = Ok s ->
  let (h, _) := hrun hash ops (s, w) in conforms hash (usable n W) False dempty h /\ map o_op h = ops.
Proof. exact map_history. Qed.
Print Assumptions C31_map.
Theorem C31_new : forall W b, valid_width W -> exists s, new_dir W b = Ok s.
Proof. exact new_dir_ok. Qed.
Print Assumptions C31_new.
Example C31_case : named_ops (firstn 4 sample) /\ existsb is_reload (firstn 4 sample) = false /\ new_dir 256 None = Ok dir256 /\
  map o_res (firstn 3 (fst (hrun hash8 sample (dir256, good_store)))) = [Ok VUnit; Ok (VOld None); Ok (VEntry (node_entry (rawn x01)))] /\
  map o_res (firstn 3 (fst (hrun hash8 sample (dir256, one_add)))) = [Ok VUnit; Err EAdd; Ok (VEntry (node_entry (rawn x01)))].
Proof.
  split; [repeat constructor; discriminate|]. split; [reflexivity|]. split; [vm_compute; reflexivity|]. split; vm_compute; reflexivity.
Qed.

(** C32: "too deep" is reported exactly if the name is new and another stored name
    agrees with it on all usable bits; it is the only way SetLink fails, and then the
    directory is as before. *)
Theorem C32_too_deep : forall hash n W b s w d k l, (2 <= n)%nat -> (forall k, length (hash k) = n) -> valid_width W ->
  reached hash W b s w d -> k <> [] -> (forall x, w_getok w x = true) ->
  let (r, s') := SetLink hash w k l s in
  (r = Err ETooDeep <-> too_deep hash (usable n W) d k) /\
  (r <> Ok tt -> r = Err ETooDeep /\ forall ops, named_ops ops -> conforms hash (usable n W) False d (fst (hrun hash ops (s', w)))).
Proof. exact deep_iff'. Qed.
Print Assumptions C32_too_deep.
Example C32_case : exists s d, reached hash8 256 None s good_store d /\ nlong2 <> [] /\ too_deep hash8 (usable 8 256) d nlong2 /\
  fst (SetLink hash8 good_store nlong2 (lnk x04) s) = Err ETooDeep.
Proof. exact deep_case. Qed.

(** C33 is false: after setting the empty name it cannot be found. *)
Theorem C33_empty_name_refuted : exists h s w, hrun hash8 [HSet [] (rawn x01); HFind []] (dir256, good_store) = (h, (s, w)) /\
  map o_res h = [Ok VUnit; Err ENotExist].
Proof. exact empty_name_lost. Qed.
Print Assumptions C33_empty_name_refuted.

(** C34: directories with the same width, CID builder and contents have the same root
    node, whatever their histories (with saves, reloads and failures in between). *)
Theorem C34_one_shape : forall hash n W b1 b2 s1 w1 d1 s2 w2 d2 n1 n2 w1' w2', (2 <= n)%nat -> (forall k, length (hash k) = n) -> valid_width W ->
  proto_prefix b1 = proto_prefix b2 -> reached hash W b1 s1 w1 d1 -> reached hash W b2 s2 w2 d2 -> deq d1 d2 ->
  Node s1 w1 = (Ok n1, w1') -> Node s2 w2 = (Ok n2, w2') -> n1 = n2.
Proof. exact one_shape. Qed.
Print Assumptions C34_one_shape.
Example C34_case : exists s1 w1 d1 s2 w2 d2 n w1' w2', reached hash8 256 None s1 w1 d1 /\ reached hash8 256 None s2 w2 d2 /\ deq d1 d2 /\ d1 na <> None /\ d1 nb <> None /\
  Node s1 w1 = (Ok n, w1') /\ Node s2 w2 = (Ok n, w2') /\ w1 <> w2.
Proof. exact shape_case. Qed.

(** C35: the node of a directory loads as a directory with the same contents: any
    history on it conforms (no error but a fetch error when a block cannot be fetched),
    and it serialises to the same node. *)
Theorem C35_reload : forall hash n W b s w d nd w1, (2 <= n)%nat -> (forall k, length (hash k) = n) -> valid_width W ->
  reached hash W b s w d -> Node s w = (Ok nd, w1) ->
  exists s', NewHamtFromDag nd = Ok s' /\
    (forall w2, wext w1 w2 -> let (r, w3) := Node s' w2 in r = Ok nd \/ (r = Err EAdd /\ add_failed w2 w3)) /\
    (forall w2 ops, wext w1 w2 -> named_ops ops -> conforms hash (usable n W) (exists x, w_getok w2 x = false) d (fst (hrun hash ops (s', w2)))).
Proof. exact reload_reached'. Qed.
Print Assumptions C35_reload.
(** Histories with reloads in between. *)
Theorem C35_history : forall hash n W b ops s w, (2 <= n)%nat -> (forall k, length (hash k) = n) -> valid_width W -> named_ops ops -> new_dir W b = Ok s ->
  let (h, _) := hrun hash ops (s, w) in conforms hash (usable n W) (exists x, w_getok w x = false) dempty h /\ map o_op h = ops.
Proof. exact reload_history. Qed.
Print Assumptions C35_history.
(** Every saved root is in the DAG service. *)
Theorem C35_stored : forall hash n W b s w d, (2 <= n)%nat -> (forall k, length (hash k) = n) -> valid_width W -> reached hash W b s w d ->
  let (r, w') := Node s w in
  match r with Ok nd => stored w' nd = true | Err e => e = EAdd /\ add_failed w w' | _ => False end.
Proof. exact node_stored'. Qed.
Print Assumptions C35_stored.
Example C35_case : named_ops sample /\ new_dir 256 None = Ok dir256 /\ (forall x, w_getok good_store x = true) /\
  map o_res (skipn 8 (fst (hrun hash8 sample (dir256, good_store)))) =
    [Err ENotExist; Ok VUnit; Err ETooDeep; Ok (VOld (Some (node_entry (rawn x02)))); Ok VUnit; Ok VUnit; Ok (VList [(nb, node_entry (rawn x05))])].
Proof. split; [repeat constructor; discriminate|]. split; [vm_compute; reflexivity|]. split; [reflexivity|]. vm_compute. reflexivity. Qed.

(** C36: ForEachLink hands every entry, once and under its plain name, to the callback,
    until the callback fails; and the directory is as before. *)
Theorem C36_for_each : forall hash n W b s w d cb, (2 <= n)%nat -> (forall k, length (hash k) = n) -> valid_width W -> reached hash W b s w d ->
  exists es, listing d es /\
    let '(r, (s', acc)) := ForEachLink w cb (s, []) in
    match r with
    | Ok _ => feed cb [] es = (None, acc)
    | Err e => feed cb [] es = (Some e, acc) \/
        (e = EFetch /\ (exists x, w_getok w x = false) /\ exists es1 es2, es = es1 ++ es2 /\ feed cb [] es1 = (None, acc))
    | _ => False
    end /\ forall ops, named_ops ops -> conforms hash (usable n W) (exists x, w_getok w x = false) d (fst (hrun hash ops (s', w))).
Proof. exact each_reached'. Qed.
Print Assumptions C36_for_each.
Example C36_case : exists s w d l, reached hash8 256 None s w d /\ d na <> None /\ d nb <> None /\ ForEachLink w (fun _ _ => None) (s, []) = (Ok tt, l) /\
  map lname (snd l) = [nb; na].
Proof. exact each_case. Qed.

(** C44: the bitmap written to a node and read back is the same, and denotes the slots
    set; the position of a slot's link is the number of occupied slots before it. *)
Theorem C44_roundtrip : forall bf zs, length zs = length bf -> bf_setbytes zs (obytes (bf_bytes bf)) = Ok bf.
Proof. exact bf_roundtrip. Qed.
Print Assumptions C44_roundtrip.
Theorem C44_bit : forall bf i, 0 <= i < 8 * zlen bf -> bf_bit bf i = Ok (occupied bf i).
Proof. exact bf_bit_ok. Qed.
Print Assumptions C44_bit.
Theorem C44_set : forall bf i, 0 <= i < 8 * zlen bf ->
  exists b, bf_set bf i = Ok b /\ zlen b = zlen bf /\ forall j, 0 <= j < 8 * zlen bf -> occupied b j = (j =? i) || occupied bf j.
Proof. exact bf_set_ok'. Qed.
Print Assumptions C44_set.
Theorem C44_unset : forall bf i, 0 <= i < 8 * zlen bf ->
  exists b, bf_unset bf i = Ok b /\ zlen b = zlen bf /\ forall j, 0 <= j < 8 * zlen bf -> occupied b j = negb (j =? i) && occupied bf j.
Proof. exact bf_unset_ok'. Qed.
Print Assumptions C44_unset.
Theorem C44_index : forall s i, 0 <= i < 8 * zlen (s_bf s) -> sliceIndex s i = Ok (occupied_before (s_bf s) i).
Proof. exact slice_index_ok. Qed.
Print Assumptions C44_index.
Example C44_case : bf_bytes [x00; x05; x80] = Some [x05; x80] /\ bf_setbytes [x00; x00; x00] [x05; x80] = Ok [x00; x05; x80] /\
  0 <= 8 < 8 * zlen [x00; x05; x80] /\ occupied [x00; x05; x80] 8 = true /\ bf_bit [x00; x05; x80] 8 = Ok true /\ bf_before [x00; x05; x80] 10 = Ok 2.
Proof. split; [reflexivity|]. split; [reflexivity|]. split; [vm_compute; intuition congruence|]. vm_compute. auto. Qed.

(** C57 is false: the link returned by Find is not named like the entry. *)
Theorem C57_find_name_refuted : exists s l s', SetLink hash8 good_store na (lnk x01) dir256 = (Ok tt, s) /\ Find hash8 good_store na s = (Ok (Some l), s') /\ lname l <> na.
Proof. exact find_link_name. Qed.
Print Assumptions C57_find_name_refuted.
(** C57: the name is that of the entry with or without a slot prefix in front; size and
    target are those of the entry. *)
Theorem C57_find_name_partial : forall hash n W b s w d k l s', (2 <= n)%nat -> (forall k, length (hash k) = n) -> valid_width W -> reached hash W b s w d -> k <> [] -> Find hash w k s = (Ok (Some l), s') ->
  d k = Some (lsize l, lto l) /\ exists p, lname l = p ++ k /\ (p = [] \/ length p = length (hexX (W - 1))).
Proof. exact find_names. Qed.
Print Assumptions C57_find_name_partial.
(** C57: both happen, for one entry: calling ForEachLink renames the links. *)
Theorem C57_changes_refuted : exists s w d s1 acc l l' s2 s3, reached hash8 256 None s w d /\ ForEachLink w (fun _ _ => None) (s, []) = (Ok tt, (s1, acc)) /\
  Find hash8 w na s = (Ok (Some l), s2) /\ Find hash8 w na s1 = (Ok (Some l'), s3) /\ lname l <> na /\ lname l' = na.
Proof. exact find_name_changes. Qed.
Print Assumptions C57_changes_refuted.

(** C58 is false: malformed shard nodes panic, when loaded or when saved again. *)
Theorem C58_bitmap_too_long_refuted : forall p d ls fsn, FSNodeFromBytes d = Ok fsn -> getType fsn = THAMTShard -> getHashType fsn = HashMurmur3 ->
  valid_width (getFanout fsn) -> getFanout fsn < 8 * zlen (getData fsn) -> NewHamtFromDag (NProto p d ls) = Panic.
Proof. exact from_dag_panics. Qed.
Print Assumptions C58_bitmap_too_long_refuted.
Example C58_case : exists fsn, FSNodeFromBytes fat_data = Ok fsn /\ getType fsn = THAMTShard /\ getHashType fsn = HashMurmur3 /\ valid_width (getFanout fsn) /\ getFanout fsn < 8 * zlen (getData fsn).
Proof. exact fat_case. Qed.
Theorem C58_bitmap_without_links_refuted : exists s, NewHamtFromDag (NProto (resolve v0prefix) thin_data []) = Ok s /\ fst (Node s good_store) = Panic.
Proof. exact malformed_node_panics. Qed.
Print Assumptions C58_bitmap_without_links_refuted.

(** C59 is false: a CID builder set when the directory already has sub-shards does not
    reach them, so the same entries with the same builder give another root. *)
Theorem C59_late_builder_refuted : exists n1 n2 w1 w2 s2 s3,
  Node (SetCidBuilder (Some v1) two_names) good_store = (Ok n1, w1) /\
  SetLink hash8 good_store na (lnk x01) (SetCidBuilder (Some v1) dir256) = (Ok tt, s2) /\
  SetLink hash8 good_store nb (lnk x02) s2 = (Ok tt, s3) /\
  Node s3 good_store = (Ok n2, w2) /\ node_eqb n1 n2 = false.
Proof. exact builder_late. Qed.
Print Assumptions C59_late_builder_refuted.
(** C59: it does apply to the whole directory as long as no two names share a slot of the
    root: then the root is that of a directory that has had this builder from the start. *)
Theorem C59_flat_partial : forall hash n W b b' s w d s2 w2 d2 n1 n2 w1' w2', (2 <= n)%nat -> (forall k, length (hash k) = n) -> valid_width W -> reached hash W b s w d -> reached hash W b' s2 w2 d2 -> deq d d2 ->
  (forall k k', d k <> None -> d k' <> None -> bits_at (hash k) 0 (Z.log2 W) = bits_at (hash k') 0 (Z.log2 W) -> k = k') ->
  Node (SetCidBuilder b' s) w = (Ok n1, w1') -> Node s2 w2 = (Ok n2, w2') -> n1 = n2.
Proof. exact builder_flat. Qed.
Print Assumptions C59_flat_partial.
Example C59_flat_case : exists s w d s2 w2 d2 n1 n2 w1' w2', reached hash8 256 None s w d /\ reached hash8 256 (Some v1) s2 w2 d2 /\ deq d d2 /\ apart hash8 256 d /\ d na <> None /\ d [x62] <> None /\
  Node (SetCidBuilder (Some v1) s) w = (Ok n1, w1') /\ Node s2 w2 = (Ok n2, w2') /\ node_eqb n1 n2 = true.
Proof. exact flat_case. Qed.

(** C61: the node of every Set or Swap that succeeded is in the DAG service, now and
    after any further operations. *)
Theorem C61_stored : forall hash n W b ops s w h s' w', (2 <= n)%nat -> (forall k, length (hash k) = n) -> valid_width W -> named_ops ops -> new_dir W b = Ok s ->
  hrun hash ops (s, w) = (h, (s', w')) -> forall o k m v, In o h -> o_op o = HSet k m \/ o_op o = HSwap k m -> o_res o = Ok v -> stored w' (seal m) = true.
Proof. exact history_stores. Qed.
Print Assumptions C61_stored.
Example C61_case : exists h s w o, named_ops sample /\ new_dir 256 None = Ok dir256 /\ hrun hash8 sample (dir256, good_store) = (h, (s, w)) /\ stored good_store (seal (rawn x01)) = false /\
  In o h /\ o_op o = HSet na (rawn x01) /\ o_res o = Ok VUnit.
Proof.
  exists (fst (hrun hash8 sample (dir256, good_store))), (fst (snd (hrun hash8 sample (dir256, good_store)))), (snd (snd (hrun hash8 sample (dir256, good_store)))), (mkObs (HSet na (rawn x01)) false (Ok VUnit)).
  split; [repeat constructor; discriminate|]. split; [vm_compute; reflexivity|]. split; [now destruct (hrun _ _ _) as [? [? ?]]|]. split; [vm_compute; reflexivity|]. split; [vm_compute; auto|]. split; reflexivity.
Qed.
