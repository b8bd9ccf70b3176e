(** Concrete histories in which the CID builder changes. *)
From Verif Require Import Base Pb FSNode Dag DagProofs Builder HashBits Bitfield SpecHash HashProofs Hamt SpecHamt HamtExec HamtWitness Walk WalkWitness Directory SpecDir DirExec DirWitness DirLate LateProofs.

Fixpoint lfollow hash W (cs : list lop) (st : directory * world) : option (list dobs * (directory * world)) :=
  match cs with
  | [] => Some ([], st)
  | LBuilder b :: r => lfollow hash W r (dSetCidBuilder b (fst st), snd st)
  | LOp T op :: r =>
      match dstep hash W T op st with
      | Some (v, st1) => match lfollow hash W r st1 with Some (h, st2) => Some (mkDobs op (snd st) (snd st1) v :: h, st2) | None => None end
      | None => None
      end
  end.
Lemma lfollow_ok hash W mayc cs : forall st h st', lfollow hash W cs st = Some (h, st') -> lrun hash W mayc st cs h st'.
Proof.
  induction cs as [|[T op|b] cs IH]; intros st h st' H; cbn [lfollow] in H; [injection H as <- <-; constructor| |].
  - destruct (dstep hash W T op st) as [[v st1]|] eqn:E; [|discriminate]. destruct (lfollow hash W cs st1) as [[h1 st2]|] eqn:E1; [|discriminate]. injection H as <- <-. econstructor; [now apply dstep_ok|now apply IH].
  - destruct st as [x w]. apply lr_builder. now apply IH.
Qed.

(** The builder changes before the directory is sharded, and afterwards. *)
Definition lsample : list lop :=
  [LOp 60 (DAdd na ra); LBuilder (Some v1); LOp 60 (DAdd nb rb); LBuilder None; LOp 60 DEach; LOp 60 DReload; LOp 60 (DStore ra); LOp 60 (DFind na); LOp 60 (DRemove nc)].
Definition lres : list dobs * (directory * world) := match lfollow hash8 256 lsample (dnew, good_store) with Some x => x | None => ([], (dnew, good_store)) end.
Definition lroot : node := match fst (Node (hshard (snd lres)) (snd (snd lres))) with Ok n => n | _ => ra end.
Definition lsub : node := match node_links lroot with l :: _ => lto l | [] => ra end.
Lemma lsample_case : NewDirectory None = Ok dnew /\ named_lops lsample /\ lrun hash8 256 false (dnew, good_store) lsample (fst lres) (snd lres) /\ sharded (fst (snd lres)) = true /\
  map q_res (fst lres) = [Ok VUnit; Ok VUnit; Ok (VList [(na, node_entry ra); (nb, node_entry rb)]); Ok VUnit; Ok VUnit; Ok (VNode ra); Err ENotExist] /\
  (exists w1, Node (hshard (snd lres)) (snd (snd lres)) = (Ok lroot, w1)) /\ shard_of 2 lroot lsub /\ node_prefix lroot = proto_prefix None /\ node_prefix lsub = proto_prefix (Some v1) /\ proto_prefix (Some v1) <> proto_prefix None.
Proof.
  split; [exact dnew_ok|]. split; [repeat constructor; discriminate|]. split; [apply lfollow_ok; vm_compute; reflexivity|]. split; [vm_compute; reflexivity|]. split; [vm_compute; reflexivity|].
  split; [exists (snd (Node (hshard (snd lres)) (snd (snd lres)))); vm_compute; reflexivity|]. split; [|vm_compute; repeat split; discriminate].
  assert (X : exists l r, node_links lroot = l :: r /\ length (lname l) = 2%nat) by (vm_compute; eauto). destruct X as (l & r & E & El). unfold lsub. rewrite E. apply (so_sub 2 lroot lroot l); [constructor|rewrite E; now left|exact El].
Qed.

(** The same at the level of shards. *)
Definition blsample : list bop :=
  [BOp (HSetLink na (lnk x01)); BBuilder (Some v1); BOp (HSetLink nb (lnk x02)); BBuilder None; BOp (HFind na); BOp HReload; BOp (HTake nb); BBuilder (Some v1); BOp HEach].
Lemma blsample_case : new_dir 256 None = Ok dir256 /\ named_bops blsample /\
  map o_res (fst (blrun hash8 blsample (dir256, good_store))) = [Ok VUnit; Ok VUnit; Ok (VEntry (lentry (lnk x01))); Ok VUnit; Ok (VOld (Some (lentry (lnk x02)))); Ok (VList [(na, lentry (lnk x01))])] /\
  blast None blsample = Some v1.
Proof. split; [vm_compute; reflexivity|]. split; [repeat constructor; discriminate|]. split; vm_compute; reflexivity. Qed.
