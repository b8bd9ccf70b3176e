(** Concrete programs with several directories. *)
From Verif Require Import Base Pb FSNode Dag Builder HashBits Bitfield Hamt HamtExec HamtWitness Walk Directory DirWitness DirObj SpecDirObj DirObjProofs DirObjRun DirObjSize.

(** Operations that make no size check of a sharded directory can be computed. *)
Definition dyn_addf hash W (T : Z) (k : bytes) (n : node) (d : odir) (hp : heap) (w : world) : option (res unit * (odir * heap * world)) :=
  match d with
  | OHamt h =>
      match nocheck hash w T k (Some n) h with
      | Some h1 => match hAddChild hash k n (h1, w) with (r1, (h2, w1)) => Some (r1, (OHamt h2, hp, w1)) end
      | None => None
      end
  | OBasic p est =>
      match bview hp p est with
      | None => None
      | Some b =>
          if needsToSwitchToHAMTDir T k (Some n) b then
            match switchToSharding hash W w b with
            | Ok h => match hAddChild hash k n (h, w) with (Ok _, (h1, w1)) => Some (Ok tt, (OHamt h1, hp, w1)) | _ => None end
            | _ => None
            end
          else match oAddChild k n p est hp with (r1, (est1, hp1)) => Some (r1, (OBasic p est1, hp1, w)) end
      end
  end.
Lemma dyn_addf_ok hash W mayc T k n d hp w r st : dyn_addf hash W T k n d hp w = Some (r, st) -> oDynAdd hash W mayc T k n d hp w r st.
Proof.
  unfold dyn_addf, oDynAdd. destruct d as [p est|h].
  - destruct (bview hp p est) as [b|]; [|discriminate]. destruct (needsToSwitchToHAMTDir T k (Some n) b).
    + destruct (switchToSharding hash W w b) as [h| | |]; try discriminate. destruct (hAddChild hash k n (h, w)) as [[[]| | |] [h1 w1]]; try discriminate. intros E. injection E as <- <-. auto.
    + destruct (oAddChild k n p est hp) as [r1 [e1 h1]]. intros E. injection E as <- <-. auto.
  - destruct (nocheck hash w T k (Some n) h) as [h1|] eqn:E; [|discriminate]. destruct (hAddChild hash k n (h1, w)) as [r1 [h2 w1]] eqn:Eh. intros G. injection G as <- <-. exists (Ok false), h1. split; [now apply nocheck_ok|]. now rewrite Eh.
Qed.
Definition ostep hash W (op : oop) (st : obj) : option (res oval * obj) :=
  let hp := o_nodes st in let ds := o_dirs st in let w := o_world st in
  match op with
  | ONode n => Some (Ok (ORef (length hp)), mkObj (hp ++ [n]) ds w)
  | OEncode a => Some (Ok OUnit, mkObj (encode a hp) ds w)
  | OEdit a q d ls => match nth_error hp a with Some (NProto _ _ _) => Some (Ok OUnit, mkObj (set_nth a (NProto q d ls) hp) ds w) | _ => None end
  | ONew b =>
      match newEmptyBasicDirectory with
      | Ok x => Some (Ok (ODir (length ds)), mkObj (assign_prefix (length hp) (proto_prefix b) (hp ++ [NProto (b_prefix x) (b_data x) (b_links x)])) (ds ++ [OBasic (length hp) (b_est x)]) w)
      | _ => None
      end
  | OLoad a =>
      match nth_error hp a with
      | Some n =>
          match NewDirectoryFromNode n with
          | Ok (DBasic b) => Some (Ok (ODir (length ds)), mkObj (hp ++ [NProto (b_prefix b) (b_data b) (b_links b)]) (ds ++ [OBasic (length hp) (b_est b)]) w)
          | Ok (DHamt h) => Some (Ok (ODir (length ds)), mkObj hp (ds ++ [OHamt h]) w)
          | _ => None
          end
      | None => None
      end
  | OAdd i T k a =>
      match nth_error ds i, nth_error hp a with
      | Some d, Some n => match dyn_addf hash W T k n d (encode a hp) w with Some (r, (d', hp', w')) => Some (rmap (fun _ => OUnit) r, mkObj hp' (set_nth i d' ds) w') | None => None end
      | _, _ => None
      end
  | OGet i =>
      match nth_error ds i with
      | Some (OBasic p _) => Some (Ok (ORef p), st)
      | Some (OHamt h) => match Node (h_shard h) w with (Ok n, w1) => Some (Ok (ORef (length hp)), mkObj (hp ++ [n]) ds w1) | _ => None end
      | None => None
      end
  | OBuilder _ _ | ORemove _ _ _ => None
  end.
Lemma ostep_ok hash W mayc op st r st' : ostep hash W op st = Some (r, st') -> oexec hash W mayc op st r st'.
Proof.
  destruct op as [n|a|a q d ls|b|a|i b|i T k a|i T k|i]; cbn [ostep oexec]; try discriminate.
  - intros E; injection E as <- <-; auto.
  - intros E; injection E as <- <-; auto.
  - destruct (nth_error (o_nodes st) a) as [[]|]; try discriminate. intros E; injection E as <- <-; auto.
  - destruct newEmptyBasicDirectory as [x| | |]; try discriminate. intros E; injection E as <- <-; auto.
  - destruct (nth_error (o_nodes st) a) as [n|]; [|discriminate]. destruct (NewDirectoryFromNode n) as [[x|h]| | |]; try discriminate; intros E; injection E as <- <-; auto.
  - destruct (nth_error (o_dirs st) i) as [d|]; [|discriminate]. destruct (nth_error (o_nodes st) a) as [n|]; [|discriminate]. destruct (dyn_addf _ _ _ _ _ _ _ _) as [[r0 [[d' hp'] w']]|] eqn:E; [|discriminate]. intros G; injection G as <- <-. exists r0, d', hp', w'. split; [now apply dyn_addf_ok|auto].
  - destruct (nth_error (o_dirs st) i) as [[p e|h]|]; try discriminate; [intros E; injection E as <- <-; auto|]. destruct (Node (h_shard h) (o_world st)) as [[n| | |] w1]; try discriminate. intros E; injection E as <- <-; auto.
Qed.
Fixpoint ofollow hash W (ops : list oop) (st : obj) : option (list (res oval) * obj) :=
  match ops with
  | [] => Some ([], st)
  | op :: r => match ostep hash W op st with Some (v, st1) => match ofollow hash W r st1 with Some (vs, st2) => Some (v :: vs, st2) | None => None end | None => None end
  end.
Lemma ofollow_ok hash W mayc ops : forall st rs st', ofollow hash W ops st = Some (rs, st') -> orun hash W mayc st ops rs st'.
Proof.
  induction ops as [|op ops IH]; intros st rs st' H; cbn [ofollow] in H; [injection H as <- <-; constructor|]. destruct (ostep hash W op st) as [[v st1]|] eqn:E; [|discriminate]. destruct (ofollow hash W ops st1) as [[vs st2]|] eqn:E2; [|discriminate]. injection H as <- <-.
  econstructor; [apply ostep_ok; exact E|apply IH; exact E2].
Qed.
Definition ostart : obj := mkObj [] [] good_store.
Definition oafter (ops : list oop) : obj := match ofollow hash8 256 ops ostart with Some (_, st) => st | None => ostart end.
Definition oresults (ops : list oop) : list (res oval) := match ofollow hash8 256 ops ostart with Some (rs, _) => rs | None => [] end.
Lemma oafter_reach mayc ops : oreach hash8 256 mayc (oafter ops).
Proof.
  unfold oafter. destruct (ofollow hash8 256 ops ostart) as [[rs st]|] eqn:E; [exists good_store, ops, rs; now apply ofollow_ok|]. exists good_store, [], []. constructor.
Qed.

(** A program: two nodes, a new directory, its node, an entry. *)
Definition ops1 : list oop := [ONode ra; ONode rb; ONew None; OGet 0].
Definition ops2 : list oop := ops1 ++ [OAdd 0 0 na 0].
(** The directory grows above the threshold, is saved, and gets another entry; a second one
    was loaded from its first node. *)
Definition ops3 : list oop := ops2 ++ [OLoad 2; OAdd 0 50 nb 1; OGet 0; OAdd 0 0 nlong 1].
(** The program changes the node of its directory, and adds an entry. *)
Definition ops4 : list oop := ops1 ++ [OEdit 2 (resolve v0prefix) (match FolderPBData with Ok d => d | _ => [] end) [mkLink nb 1 rb]].
Definition ops5 : list oop := ops4 ++ [OAdd 0 60 na 0].
Lemma careful_follow ops : Forall (fun op => match op with OEdit _ _ _ _ | OLoad _ => False | _ => True end) ops -> forall st rs st', creach hash8 256 false st -> orun hash8 256 false st ops rs st' -> creach hash8 256 false st'.
Proof.
  induction 1 as [|op ops Ho _ IH]; intros st rs st' Hc H; inversion H as [|? ? ? ? ? ? ? H1 H2]; subst; [assumption|]. eapply IH; [|exact H2]. eapply cr_step; [exact Hc| |exact H1]. destruct op; try contradiction; exact Logic.I.
Qed.
Lemma snapshot_wrong : exists hash W mayc st a n T k c st' n', oreach hash W mayc st /\ answers hash W mayc st 0 a /\ node_of st a = Some n /\ oexec hash W mayc (OAdd 0 T k c) st (Ok OUnit) st' /\ c <> a /\
  node_of st' a = Some n' /\ seal n <> seal n'.
Proof.
  exists hash8, 256, false, (oafter ops1), 2%nat. eexists. exists 0, na, 0%nat, (oafter ops2). eexists. split; [apply oafter_reach|]. split; [split; [vm_compute; discriminate|]; exists (oafter ops1); apply ostep_ok; vm_compute; reflexivity|]. split; [vm_compute; reflexivity|].
  split; [apply ostep_ok; vm_compute; reflexivity|]. split; [discriminate|]. split; [vm_compute; reflexivity|]. vm_compute. discriminate.
Qed.
Lemma edit_wrong : exists hash W mayc st b T k a st' b', oreach hash W mayc st /\ 0 < T /\ dir_of st 0 = Some (DBasic b) /\ NoDup (map lname (b_links b)) /\ oexec hash W mayc (OAdd 0 T k a) st (Ok OUnit) st' /\
  dir_of st' 0 = Some (DBasic b') /\ T < entries_size (b_links b').
Proof.
  exists hash8, 256, false, (oafter ops4). eexists. exists 60, na, 0%nat, (oafter ops5). eexists. split; [apply oafter_reach|]. split; [reflexivity|]. split; [vm_compute; reflexivity|].
  split; [vm_compute; constructor; [intros []|constructor]|]. split; [apply ostep_ok; vm_compute; reflexivity|]. split; [vm_compute; reflexivity|]. vm_compute. reflexivity.
Qed.
