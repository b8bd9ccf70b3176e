(** A concrete tree: a sharded directory with a file and a basic directory in it, which
    holds another file, in the other layout, and a symbolic link. *)
From Verif Require Import Base Pb FSNode Dag DagProofs Builder Balanced Trickle Importer HashBits Bitfield SpecHash HashProofs Hamt SpecHamt HamtExec HamtNode HamtWitness Walk WalkWitness Directory SpecDir DirExec DirBasic DirectoryProofs DirWitness Resolve SpecResolve UnixFile FileWitness SpecTree TreeProofs.

Definition chunks5 : list bytes := [[x61; x62]; [x63]; [x64; x65]; []; [x66]].
Definition small : params := mkParams 2 false None false.
Definition nodeof (x : res node * world) : node := match fst x with Ok n => n | _ => ra end.
Definition imp1 := balanced_import 5 small false (map EvData chunks5) good_store.
Definition imp2 := trickle_import 6 small false (map EvData chunks5) (snd imp1).
Definition lnode : node := NProto v0prefix [x08; x04; x12; x02; x2f; x61] [].
Definition wl : world := snd (dserv_add lnode None (snd imp2)).
Definition in_hist : list (Z * dop) := [(0, DAdd nc (nodeof imp2)); (0, DAdd ba lnode)].
Definition in_node : node := droot wl in_hist.
Definition win : world := snd (dserv_add in_node None (dworld wl in_hist)).
Definition out_hist : list (Z * dop) := [(1, DAdd na (nodeof imp1)); (1, DAdd nb in_node)].
Definition out_node : node := droot win out_hist.
Definition wall : world := snd (dserv_add out_node None (dworld win out_hist)).
Definition tree5 : tree := TDir [(na, TFile (concat chunks5)); (nb, TDir [(nc, TFile (concat chunks5)); (ba, TLink [x2f; x61])])].

Lemma adds_contents nodes : forall h d, map q_op h = map (fun x => DAdd (fst x) (snd x)) nodes -> Forall (fun o => q_res o = Ok VUnit) h -> dcontents d h = puts_all nodes d.
Proof.
  induction nodes as [|[k nd] nodes IH]; intros [|o h] d E F; try discriminate; [reflexivity|]. cbn [map fst snd] in E. injection E as E1 E2. inversion F; subst. cbn [dcontents fold_left puts_all fst snd]. fold (dcontents (deffect d o) h). rewrite (IH h _ E2) by assumption.
  f_equal. unfold deffect. rewrite E1. match goal with H : q_res o = _ |- _ => now rewrite H end.
Qed.
Lemma dfollow_ops hash W cs : forall st h st', dfollow hash W cs st = Some (h, st') -> map q_op h = map snd cs.
Proof.
  induction cs as [|[T op] cs IH]; intros st h st' H; cbn [dfollow] in H; [injection H as <- <-; reflexivity|].
  destruct (dstep hash W T op st) as [[v st1]|] eqn:E; [|discriminate]. destruct (dfollow hash W cs st1) as [[h1 st2]|] eqn:E1; [|discriminate]. injection H as <- <-. cbn. f_equal. eapply IH, E1.
Qed.
Definition allok (h : list dobs) : bool := forallb (fun o => match q_res o with Ok VUnit => true | _ => false end) h.
Lemma allok_spec h : allok h = true -> Forall (fun o => q_res o = Ok VUnit) h.
Proof. intros H. apply Forall_forall. intros o Ho. unfold allok in H. rewrite forallb_forall in H. specialize (H o Ho). destruct (q_res o) as [[]|e| |]; congruence. Qed.
(** Publishing a directory by computation. *)
Lemma publish_dir kids w nodes w1 cs : publishes_all hash8 256 kids w nodes w1 -> dfeasible w1 cs = true -> named_dops (map snd cs) -> map snd cs = map (fun x => DAdd (fst x) (snd x)) nodes -> NoDup (map fst nodes) ->
  allok (fst (dpath w1 cs)) = true -> is_ok (fst (dGetNode (dstate w1 cs))) = true -> is_ok (fst (dserv_add (droot w1 cs) None (dworld w1 cs))) = true ->
  publishes hash8 256 (TDir kids) w (droot w1 cs) (snd (dserv_add (droot w1 cs) None (dworld w1 cs))).
Proof.
  intros Hp Hf Hn Ho Hd Ha Hg Hs. unfold droot, dworld in *. pose proof (dpath_run false w1 cs Hf) as Hr. assert (Hq : map q_op (fst (dpath w1 cs)) = map snd cs).
  { unfold dpath, dfeasible in *. destruct (dfollow hash8 256 cs (dnew, w1)) as [[h st]|] eqn:E; [|discriminate]. eapply dfollow_ops, E. }
  destruct (dstate w1 cs) as [x1 w2]. destruct (dGetNode (x1, w2)) as [[nd| | |] [x2 w3]] eqn:Eg; try discriminate. cbn [fst snd] in *. destruct (dserv_add (seal nd) None w3) as [[[]| | |] w4] eqn:Es; try discriminate. cbn [fst snd].
  eapply pub_dir; [exact Hp|exact dnew_ok|exact Hn|exact Hr| |exact Eg|].
  - intros k. rewrite (adds_contents nodes _ dempty); [|rewrite Hq; exact Ho|now apply allok_spec]. rewrite puts_assoc by assumption. now destruct (assoc k nodes).
  - unfold dserv_add in Es |- *. rewrite seal_idem in Es. exact Es.
Qed.
Lemma small_links : 1 <= pr_maxlinks small.
Proof. discriminate. Qed.
Lemma link_data : SymlinkData [x2f; x61] = Ok [x08; x04; x12; x02; x2f; x61].
Proof. vm_compute. reflexivity. Qed.
Lemma tree5_published : publishes hash8 256 tree5 good_store out_node wall.
Proof.
  assert (E1 : balanced_import 5 small false (map EvData chunks5) good_store = (Ok (nodeof imp1), snd imp1)) by (vm_compute; reflexivity).
  assert (E2 : trickle_import 6 small false (map EvData chunks5) (snd imp1) = (Ok (nodeof imp2), snd imp2)) by (vm_compute; reflexivity).
  assert (E3 : dserv_add lnode None (snd imp2) = (Ok tt, wl)) by (vm_compute; reflexivity).
  assert (P1 := pub_balanced hash8 256 5 small false chunks5 good_store _ _ E1).
  assert (P2 := pub_trickle hash8 256 6 small false chunks5 (snd imp1) _ _ small_links (proj1 (Nat.ltb_lt 5 6) eq_refl) E2).
  assert (P3 := pub_link hash8 256 [x2f; x61] v0prefix _ (snd imp2) wl eq_refl link_data E3).
  assert (P4 := publish_dir _ _ _ _ in_hist (pub_cons hash8 256 nc _ _ _ _ _ _ _ P2 (pub_cons hash8 256 ba _ _ _ _ _ _ _ P3 (pub_nil hash8 256 _)))).
  assert (P5 : publishes hash8 256 (TDir [(nc, TFile (concat chunks5)); (ba, TLink [x2f; x61])]) (snd imp1) in_node win).
  { apply P4; clear.
    - vm_compute; reflexivity.
    - repeat constructor; discriminate.
    - unfold in_hist, lnode. cbn [map fst snd]. reflexivity.
    - repeat constructor; cbn; intuition discriminate.
    - vm_compute; reflexivity.
    - vm_compute; reflexivity.
    - vm_compute; reflexivity. }
  clear P2 P3 P4. apply (publish_dir _ _ _ _ out_hist (pub_cons hash8 256 na _ _ _ _ _ _ _ P1 (pub_cons hash8 256 nb _ _ _ _ _ _ _ P5 (pub_nil hash8 256 _)))); clear; [vm_compute; reflexivity|repeat constructor; discriminate|unfold out_hist; cbn [map fst snd]; reflexivity|repeat constructor; cbn; intuition discriminate|vm_compute; reflexivity|vm_compute; reflexivity|vm_compute; reflexivity].
Qed.
Lemma wall_reach : ~ unreachable wall.
Proof. intros [x H]. assert (E : w_getok wall x = true) by (vm_compute; reflexivity). congruence. Qed.
Lemma tree5_case : publishes hash8 256 tree5 good_store out_node wall /\ ~ unreachable wall /\ sharded (fst (dstate win out_hist)) = true /\
  at_path tree5 [nb; nc] = Some (TFile (concat chunks5)) /\ at_path tree5 [na; nc] = None /\ (1 < length (node_links (nodeof imp1)))%nat.
Proof. split; [exact tree5_published|]. split; [exact wall_reach|]. split; [vm_compute; reflexivity|]. split; [reflexivity|]. split; [reflexivity|]. apply Nat.ltb_lt. vm_compute. reflexivity. Qed.
