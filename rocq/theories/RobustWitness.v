(** Concrete shard nodes for C58. *)
From Verif Require Import Base Pb PbProofs FSNode FSNodeProofs Dag DagProofs Builder HashBits Bitfield SpecHash HashProofs Hamt SpecHamt HamtExec HamtRep HamtNode HamtRun HamtFacts HamtWitness SpecRobust.

(** A shard of 1024 slots whose only child is a shard of 8 slots. *)
Definition short_name : bytes := [x61].
Definition long_name : bytes := [x61; x20].
Definition small_data : bytes := match HAMTShardData (Some [x11]) 8 HashMurmur3 with Ok b => b | _ => [] end.
Definition small : node := NProto (resolve v0prefix) small_data [mkLink (x30 :: short_name) 1 (rawn x01); mkLink (x34 :: long_name) 1 (rawn x02)].
Definition large_data : bytes := match HAMTShardData (Some (x10 :: repeat x00 48)) 1024 HashMurmur3 with Ok b => b | _ => [] end.
Definition mixed : node := NProto (resolve v0prefix) large_data [mkLink [x31; x38; x34] 1 small].
Definition full_store : world := mkWorld (fun _ => true) [] 0 (fun _ => true) (fun _ => true).

Lemma shard_inv W bm ls p d l' fsn : is_shard W bm ls (NProto p d l') -> FSNodeFromBytes d = Ok fsn -> W = getFanout fsn /\ bm = getData fsn /\ ls = l'.
Proof. inversion 1; subst. intros E. rewrite E in *. match goal with H : Ok _ = Ok _ |- _ => injection H as <- end. auto. Qed.
Definition fsn_of' (d : bytes) : FSNode := match FSNodeFromBytes d with Ok f => f | _ => mkData None None None [] None None [] end.
Lemma decode_small : FSNodeFromBytes small_data = Ok (fsn_of' small_data) /\ getFanout (fsn_of' small_data) = 8 /\ getData (fsn_of' small_data) = [x11].
Proof. split; [vm_compute; reflexivity|]. split; vm_compute; reflexivity. Qed.
Lemma decode_large : FSNodeFromBytes large_data = Ok (fsn_of' large_data) /\ getFanout (fsn_of' large_data) = 1024 /\ getData (fsn_of' large_data) = x10 :: repeat x00 48.
Proof. split; [vm_compute; reflexivity|]. split; vm_compute; reflexivity. Qed.
Lemma mixed_sub m : subshard mixed m -> m = mixed \/ m = small.
Proof.
  inversion 1 as [|? W bm ls l ? A1 A2 A3 A4]; subst; [now left|]. destruct decode_large as (D1 & _). destruct (shard_inv _ _ _ _ _ _ _ A1 D1) as (_ & _ & ->). destruct A2 as [<-|[]]. cbn [lto] in A4.
  inversion A4 as [|? W2 bm2 ls2 l2 ? B1 B2 B3 B4]; subst; [now right|]. destruct decode_small as (D2 & D3 & _). destruct (shard_inv _ _ _ _ _ _ _ B1 D2) as (-> & _ & ->). rewrite D3 in B3. destruct B2 as [<-|[<-|[]]]; vm_compute in B3; discriminate.
Qed.
Lemma mixed_plain m : subshard mixed m -> plain m.
Proof.
  intros H W bm ls Hs. destruct (mixed_sub m H) as [->| ->].
  - destruct decode_large as (D1 & D2 & D3). destruct (shard_inv _ _ _ _ _ _ _ Hs D1) as (-> & -> & ->). rewrite D2, D3. split; [vm_compute; congruence|]. split; [vm_compute; reflexivity|]. repeat constructor; vm_compute; lia.
  - destruct decode_small as (D1 & D2 & D3). destruct (shard_inv _ _ _ _ _ _ _ Hs D1) as (-> & -> & ->). rewrite D2, D3. split; [vm_compute; congruence|]. split; [vm_compute; reflexivity|]. repeat constructor; vm_compute; lia.
Qed.
Definition mixed_shard : shard := match NewHamtFromDag mixed with Ok s => s | _ => dir8 end.
Definition mixed_removed : shard := snd (Remove hash8 full_store long_name mixed_shard).
Lemma mixed_panics : exists n w k s s', (forall m, subshard n m -> plain m) /\ (forall m, stored w m = true) /\ k <> [] /\ NewHamtFromDag n = Ok s /\ Remove hash8 w k s = (Ok tt, s') /\ fst (Node s' w) = Panic.
Proof.
  exists mixed, full_store, long_name, mixed_shard, mixed_removed. split; [exact mixed_plain|]. split; [reflexivity|]. split; [discriminate|]. split; [vm_compute; reflexivity|]. split; [|vm_compute; reflexivity].
  unfold mixed_removed. assert (E : fst (Remove hash8 full_store long_name mixed_shard) = Ok tt) by (vm_compute; reflexivity). destruct (Remove hash8 full_store long_name mixed_shard). cbn [fst snd] in *. now subst.
Qed.
(** The same nodes can be read without a panic. *)
Lemma mixed_fit : bitmaps_fit mixed.
Proof. intros m W bm ls H Hs. now destruct (mixed_plain m H W bm ls Hs). Qed.
Lemma mixed_reads : exists s l s1 l2 s2, NewHamtFromDag mixed = Ok s /\ Find hash8 full_store long_name s = (Ok (Some l), s1) /\ lto l = rawn x02 /\ Find hash8 full_store short_name s1 = (Ok (Some l2), s2) /\ lto l2 = rawn x01.
Proof. eexists _, _, _, _, _. split; [vm_compute; reflexivity|]. split; [vm_compute; reflexivity|]. split; [reflexivity|]. split; [vm_compute; reflexivity|]. reflexivity. Qed.

(** A regular node that no history writes: two bits set, three links. *)
Definition odd_data : bytes := match HAMTShardData (Some [x11]) 8 HashMurmur3 with Ok b => b | _ => [] end.
Definition odd : node := NProto (resolve v0prefix) odd_data [mkLink (x30 :: short_name) 1 (rawn x01); mkLink (x34 :: long_name) 1 (rawn x02); mkLink [x37] 1 (rawn x03)].
Lemma odd_regular : regular 8 odd.
Proof.
  intros m W bm ls Hm Hs. destruct decode_small as (D1 & D2 & D3). inversion Hm as [|? W2 bm2 ls2 l2 ? B1 B2 B3 B4]; subst.
  - destruct (shard_inv _ _ _ _ _ _ _ Hs D1) as (-> & -> & ->). rewrite D2, D3. split; [reflexivity|]. split; [vm_compute; congruence|]. split; [vm_compute; congruence|]. repeat constructor; vm_compute; lia.
  - destruct (shard_inv _ _ _ _ _ _ _ B1 D1) as (-> & _ & ->). rewrite D2 in B3. destruct B2 as [<-|[<-|[<-|[]]]]; try (vm_compute in B3; discriminate). cbn [lto] in B4. inversion B4 as [|? ? ? ? ? ? X]; subst; [inversion Hs|inversion X].
Qed.
Definition odd_ops : list hop := [HFind short_name; HSet nb (rawn x05); HEach; HRemove short_name; HNode; HReload; HEach].
Definition odd_shard : shard := match NewHamtFromDag odd with Ok s => s | _ => dir8 end.
Definition odd_end := hrun hash8 odd_ops (odd_shard, full_store).
Lemma odd_run : exists s h s' w', NewHamtFromDag odd = Ok s /\ named_ops odd_ops /\ hrun hash8 odd_ops (s, full_store) = (h, (s', w')) /\
  map (fun o => rmap (fun _ => tt) (o_res o)) h = [Err ENotExist; Ok tt; Err ENotProtobuf; Err ENotExist; Ok tt; Ok tt; Ok tt].
Proof.
  exists odd_shard, (fst odd_end), (fst (snd odd_end)), (snd (snd odd_end)). split; [vm_compute; reflexivity|]. split; [repeat constructor; discriminate|]. split; [|vm_compute; reflexivity].
  unfold odd_end. destruct (hrun hash8 odd_ops (odd_shard, full_store)) as [h [s' w']]. reflexivity.
Qed.
Definition own_end := hrun hash8 ops1 (dir256, good_store).
Lemma own_case : exists s w d n w', reached hash8 256 None s w d /\ d nb <> None /\ Node s w = (Ok n, w').
Proof.
  exists (fst (snd own_end)), (snd (snd own_end)), (contents dempty (fst own_end)), (root_of (fst (snd own_end))), (snd (Node (fst (snd own_end)) good_store)).
  split; [apply (reached_by 256 None dir256 good_store ops1 dir256_new); repeat constructor; discriminate|]. split; [vm_compute; discriminate|vm_compute; reflexivity].
Qed.
