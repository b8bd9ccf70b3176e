(** Concrete sharded directories for the examples and refutations. *)
From Verif Require Import Base Pb PbProofs FSNode FSNodeProofs Dag DagProofs Builder HashBits Bitfield SpecHash HashProofs Hamt SpecHamt HamtExec HamtRep HamtNode HamtRun HamtFacts.

(** The first eight bytes of the name, as the tests' identity hash. *)
Definition hash8 (k : bytes) : bytes := firstn 8 (k ++ repeat x00 8).
Lemma hash8_len k : length (hash8 k) = 8%nat.
Proof. unfold hash8. rewrite firstn_length, app_length, repeat_length. lia. Qed.
Lemma width256 : valid_width 256.
Proof. split; [exists 8; split; [lia|reflexivity]|]. split; [reflexivity|lia]. Qed.
Lemma width8 : valid_width 8.
Proof. split; [exists 3; split; [lia|reflexivity]|]. split; [reflexivity|lia]. Qed.

(** A service that never fails, and one that fails from the second Add on. *)
Definition good_store : world := mkWorld (fun _ => false) [] 0 (fun _ => true) (fun _ => true).
Definition one_add : world := mkWorld (fun _ => false) [] 0 (fun i => (i <? 1)%nat) (fun _ => true).
Definition rawn (b : byte) : node := NRaw rawprefix [b].
Definition lnk (b : byte) : link := mkLink [] 1 (rawn b).

(** Names: two that share the first byte, one that shares eight bytes with another. *)
Definition na : bytes := [x61; x61].
Definition nb : bytes := [x61; x62].
Definition nlong : bytes := [x61; x61; x61; x61; x61; x61; x61; x61; x31].
Definition nlong2 : bytes := [x61; x61; x61; x61; x61; x61; x61; x61; x32].

Definition dir256 : shard := match new_dir 256 None with Ok s => s | _ => mkShard 0 None [] [] None [] end.
Definition dir8 : shard := match new_dir 8 None with Ok s => s | _ => mkShard 0 None [] [] None [] end.

Definition sample : list hop :=
  [HSet na (rawn x01); HSwap nb (rawn x02); HFind na; HNode; HReload; HFind nb; HTake na; HEach; HFind na; HSetLink nlong (lnk x03); HSetLink nlong2 (lnk x04); HSwap nb (rawn x05); HRemove nlong; HReload; HEach].

Definition empty_run := hrun hash8 [HSet [] (rawn x01); HFind []] (dir256, good_store).
Lemma empty_name_lost : exists h s w, hrun hash8 [HSet [] (rawn x01); HFind []] (dir256, good_store) = (h, (s, w)) /\
  map o_res h = [Ok VUnit; Err ENotExist].
Proof. exists (fst empty_run), (fst (snd empty_run)), (snd (snd empty_run)). split; vm_compute; reflexivity. Qed.

(** Find returns a link whose name is not the name looked up. *)
Definition one_name := snd (SetLink hash8 good_store na (lnk x01) dir256).
Definition found := Find hash8 good_store na one_name.
Definition found_link := match fst found with Ok (Some l) => l | _ => lnk x00 end.
Lemma find_link_name : exists s l s', SetLink hash8 good_store na (lnk x01) dir256 = (Ok tt, s) /\ Find hash8 good_store na s = (Ok (Some l), s') /\ lname l <> na.
Proof.
  exists one_name, found_link, (snd found). split; [vm_compute; reflexivity|]. split; [vm_compute; reflexivity|]. vm_compute. discriminate.
Qed.

(** A shard node whose bitmap is longer than its width. *)
Definition fat_data : bytes := match HAMTShardData (Some [x01; x02]) 8 HashMurmur3 with Ok b => b | _ => [] end.
Lemma malformed_panics : NewHamtFromDag (NProto (resolve v0prefix) fat_data []) = Panic.
Proof. vm_compute. reflexivity. Qed.
(** A shard node with a bit set but no link. *)
Definition thin_data : bytes := match HAMTShardData (Some [xff]) 8 HashMurmur3 with Ok b => b | _ => [] end.
Definition thin : shard := match NewHamtFromDag (NProto (resolve v0prefix) thin_data []) with Ok s => s | _ => dir8 end.
Lemma malformed_node_panics : exists s, NewHamtFromDag (NProto (resolve v0prefix) thin_data []) = Ok s /\ fst (Node s good_store) = Panic.
Proof. exists thin. split; vm_compute; reflexivity. Qed.

(** Changing the CID builder of a directory that already has a sub-shard. *)
Definition v1 : prefix := mkPrefix 1 DagProtobuf 18 32.
Definition two_names : shard := snd (SetLink hash8 good_store nb (lnk x02) (snd (SetLink hash8 good_store na (lnk x01) dir256))).
Definition two_names_v1 : shard := snd (SetLink hash8 good_store nb (lnk x02) (snd (SetLink hash8 good_store na (lnk x01) (SetCidBuilder (Some v1) dir256)))).
Definition root_of (s : shard) : node := match fst (Node s good_store) with Ok n => n | _ => rawn x00 end.
Lemma builder_late : exists n1 n2 w1 w2 s2 s3,
  Node (SetCidBuilder (Some v1) two_names) good_store = (Ok n1, w1) /\
  SetLink hash8 good_store na (lnk x01) (SetCidBuilder (Some v1) dir256) = (Ok tt, s2) /\
  SetLink hash8 good_store nb (lnk x02) s2 = (Ok tt, s3) /\
  Node s3 good_store = (Ok n2, w2) /\ node_eqb n1 n2 = false.
Proof.
  exists (root_of (SetCidBuilder (Some v1) two_names)), (root_of two_names_v1), (snd (Node (SetCidBuilder (Some v1) two_names) good_store)), (snd (Node two_names_v1 good_store)),
    (snd (SetLink hash8 good_store na (lnk x01) (SetCidBuilder (Some v1) dir256))), two_names_v1.
  split; [vm_compute; reflexivity|]. split; [vm_compute; reflexivity|]. split; [vm_compute; reflexivity|]. split; [vm_compute; reflexivity|]. vm_compute. reflexivity.
Qed.

(** ** Cases *)

Definition d64 : bytes := match HAMTShardData None 64 HashMurmur3 with Ok b => b | _ => [] end.
Definition fsn_of (d : bytes) : FSNode := match FSNodeFromBytes d with Ok f => f | _ => mkData None None None [] None None [] end.
Lemma width64_case : exists d fsn s, FSNodeFromBytes d = Ok fsn /\ getType fsn = THAMTShard /\ getHashType fsn = HashMurmur3 /\ getFanout fsn = 64 /\ 8 * zlen (getData fsn) <= getFanout fsn /\
  NewHamtFromDag (NProto v0prefix d []) = Ok s.
Proof.
  exists d64, (fsn_of d64), (match NewHamtFromDag (NProto v0prefix d64 []) with Ok s => s | _ => dir8 end).
  split; [vm_compute; reflexivity|]. split; [vm_compute; reflexivity|]. split; [vm_compute; reflexivity|]. split; [vm_compute; reflexivity|]. split; [vm_compute; discriminate|vm_compute; reflexivity].
Qed.
Lemma fat_case : exists fsn, FSNodeFromBytes fat_data = Ok fsn /\ getType fsn = THAMTShard /\ getHashType fsn = HashMurmur3 /\ valid_width (getFanout fsn) /\ getFanout fsn < 8 * zlen (getData fsn).
Proof.
  exists (fsn_of fat_data). split; [vm_compute; reflexivity|]. split; [vm_compute; reflexivity|]. split; [vm_compute; reflexivity|].
  split; [replace (getFanout (fsn_of fat_data)) with 8 by (vm_compute; reflexivity); exact width8|vm_compute; reflexivity].
Qed.

Lemma reached_by W b s0 w0 ops : new_dir W b = Ok s0 -> named_ops ops ->
  reached hash8 W b (fst (snd (hrun hash8 ops (s0, w0)))) (snd (snd (hrun hash8 ops (s0, w0)))) (contents dempty (fst (hrun hash8 ops (s0, w0)))).
Proof.
  intros E HF. destruct (hrun hash8 ops (s0, w0)) as [h [s w]] eqn:Er. exists s0, w0, ops, h. auto.
Qed.
Lemma dir256_new : new_dir 256 None = Ok dir256.
Proof. vm_compute. reflexivity. Qed.

Definition ops_long : list hop := [HSetLink nlong (lnk x03)].
Lemma deep_case : exists s d, reached hash8 256 None s good_store d /\ nlong2 <> [] /\ too_deep hash8 (usable 8 256) d nlong2 /\
  fst (SetLink hash8 good_store nlong2 (lnk x04) s) = Err ETooDeep.
Proof.
  exists (fst (snd (hrun hash8 ops_long (dir256, good_store)))), (contents dempty (fst (hrun hash8 ops_long (dir256, good_store)))).
  split; [|split; [discriminate|split; [|vm_compute; reflexivity]]].
  - apply (reached_by 256 None dir256 good_store ops_long dir256_new). repeat constructor; discriminate.
  - split; [vm_compute; reflexivity|]. exists nlong. split; [discriminate|]. split; [vm_compute; discriminate|]. vm_compute. reflexivity.
Qed.

Definition ops1 : list hop := [HSetLink na (lnk x01); HSetLink nb (lnk x02)].
Definition ops2 : list hop := [HSetLink nb (lnk x05); HSetLink nlong (lnk x03); HReload; HSetLink na (lnk x01); HRemove nlong; HSetLink nb (lnk x02)].
Lemma shape_case : exists s1 w1 d1 s2 w2 d2 n w1' w2', reached hash8 256 None s1 w1 d1 /\ reached hash8 256 None s2 w2 d2 /\ deq d1 d2 /\ d1 na <> None /\ d1 nb <> None /\
  Node s1 w1 = (Ok n, w1') /\ Node s2 w2 = (Ok n, w2') /\ w1 <> w2.
Proof.
  set (r1 := hrun hash8 ops1 (dir256, good_store)). set (r2 := hrun hash8 ops2 (dir256, good_store)).
  exists (fst (snd r1)), (snd (snd r1)), (contents dempty (fst r1)), (fst (snd r2)), (snd (snd r2)), (contents dempty (fst r2)),
    (root_of (fst (snd r1))), (snd (Node (fst (snd r1)) (snd (snd r1)))), (snd (Node (fst (snd r2)) (snd (snd r2)))).
  split; [apply (reached_by 256 None dir256 good_store ops1 dir256_new); repeat constructor; discriminate|].
  split; [apply (reached_by 256 None dir256 good_store ops2 dir256_new); repeat constructor; discriminate|].
  split.
  { intros k.
    assert (E1 : contents dempty (fst r1) = dput (dput dempty na (Some (1, rawn x01))) nb (Some (1, rawn x02))) by (vm_compute; reflexivity).
    assert (E2 : contents dempty (fst r2) = dput (dput (dput (dput (dput dempty nb (Some (1, rawn x05))) nlong (Some (1, rawn x03))) na (Some (1, rawn x01))) nlong None) nb (Some (1, rawn x02))) by (vm_compute; reflexivity).
    rewrite E1, E2. unfold dput, dempty. destruct (bytes_eqb k nb); [reflexivity|]. destruct (bytes_eqb k nlong) eqn:El; [|reflexivity].
    apply bytes_eqb_eq in El. subst k. reflexivity. }
  split; [vm_compute; discriminate|]. split; [vm_compute; discriminate|]. split; [vm_compute; reflexivity|]. split; [vm_compute; reflexivity|].
  intros E. apply (f_equal w_calls) in E. vm_compute in E. discriminate.
Qed.

Definition each1 := ForEachLink good_store (fun _ _ => None) (fst (snd (hrun hash8 ops1 (dir256, good_store))), []).
Lemma each_case : exists s w d l, reached hash8 256 None s w d /\ d na <> None /\ d nb <> None /\ ForEachLink w (fun _ _ => None) (s, []) = (Ok tt, l) /\ map lname (snd l) = [nb; na].
Proof.
  set (r1 := hrun hash8 ops1 (dir256, good_store)).
  exists (fst (snd r1)), (snd (snd r1)), (contents dempty (fst r1)), (snd each1).
  split; [apply (reached_by 256 None dir256 good_store ops1 dir256_new); repeat constructor; discriminate|].
  split; [vm_compute; discriminate|]. split; [vm_compute; discriminate|]. split; vm_compute; reflexivity.
Qed.
