(** Concrete runs of the parallel enumeration. *)
From Verif Require Import Base Pb FSNode Dag DagProofs Builder HashBits Bitfield SpecHash HashProofs Hamt SpecHamt HamtExec HamtWitness Walk.

Fixpoint split_at {A} (i : nat) (l : list A) : option (list A * A * list A) :=
  match l, i with
  | [], _ => None
  | x :: r, O => Some ([], x, r)
  | x :: r, S j => match split_at j r with Some (a, y, b) => Some (x :: a, y, b) | None => None end
  end.
Lemma split_at_eq {A} i : forall (l : list A) a x b, split_at i l = Some (a, x, b) -> l = a ++ x :: b.
Proof.
  induction i as [|i IH]; intros [|y l] a x b H; try discriminate; cbn in H; [injection H as <- <- <-; reflexivity|].
  destruct (split_at i l) as [[[a' y'] b']|] eqn:E; [|discriminate]. injection H as <- <- <-. cbn. now rewrite (IH _ _ _ _ E).
Qed.

(** What worker [i] does next, with the dispatcher if they communicate; blocks are
    taken in the order asked for. *)
Definition sched (w : world) (i : nat) (s : walk) : option walk :=
  let '(mkWalk ws nx q p run seen out c e) := s in
  match split_at i ws with
  | None => None
  | Some (a, x, b) =>
      match x with
      | Idle =>
          match run, nx with
          | true, Some j => Some (mkWalk (a ++ Shards (j_shards j) (j_cids j) :: b) (fst (pop q)) (snd (pop q)) (S p) true seen out c e)
          | false, _ => Some (mkWalk (a ++ Exited :: b) nx q p false seen out c e)
          | _, _ => None
          end
      | Shards (s :: ss) cs => Some (mkWalk (a ++ Emit (fst (walkChildren s)) (snd (walkChildren s)) (KShards ss cs) :: b) nx q p run seen out c e)
      | Shards [] cs => Some (mkWalk (a ++ Visit cs [] :: b) nx q p run seen out c e)
      | Emit (l :: ls) r k => Some (mkWalk (a ++ Emit ls r k :: b) nx q p run seen (out ++ [l]) c e)
      | Emit [] (Ok j) k => Some (mkWalk (a ++ Send j k :: b) nx q p run seen out c e)
      | Emit [] (Err x) k => Some (mkWalk (a ++ Exited :: b) nx q p run seen out c (set_err x e))
      | Send j k => if run then Some (mkWalk (a ++ resume k :: b) (fst (push j nx q)) (snd (push j nx q)) p true seen out c e) else None
      | Visit (n :: cs) todo =>
          if existsb (node_eqb n) seen then Some (mkWalk (a ++ Visit cs todo :: b) nx q p run seen out c e)
          else Some (mkWalk (a ++ Visit cs (todo ++ [n]) :: b) nx q p run (n :: seen) out c e)
      | Visit [] todo => Some (mkWalk (a ++ Fetch todo :: b) nx q p run seen out c e)
      | Fetch (n :: t2) => Some (mkWalk (a ++ Emit (fst (walkFetched w n)) (snd (walkFetched w n)) (KFetch t2) :: b) nx q p run seen out c e)
      | Fetch [] => Some (mkWalk (a ++ Finish :: b) nx q p run seen out c e)
      | Finish => if run then Some (mkWalk (a ++ Idle :: b) nx q (pred p) (negb ((pred p =? 0)%nat && match nx with None => true | Some _ => false end)) seen out c e) else None
      | _ => None
      end
  end.
Lemma sched_ok w mayc i s t : sched w i s = Some t -> wstep w mayc s t.
Proof.
  destruct s as [ws nx q p run seen out c e]. cbn [sched]. destruct (split_at i ws) as [[[a x] b]|] eqn:E; [|discriminate]. apply split_at_eq in E. subst ws.
  destruct x as [|[|s ss] cs|[|l ls] r k|j k|[|n cs] todo|[|n t2]| |]; try discriminate.
  - destruct run; [destruct nx as [j|]; [|discriminate]|]; intros H; injection H as <-; [apply S_feed|apply S_exit].
  - intros H; injection H as <-. apply S_shards_end.
  - intros H; injection H as <-. apply S_shard.
  - destruct r; try discriminate; intros H; injection H as <-; [apply S_emit_ok|apply S_emit_err].
  - intros H; injection H as <-. apply S_emit.
  - destruct run; [|discriminate]. intros H; injection H as <-. apply S_out.
  - intros H; injection H as <-. apply S_visit_end.
  - destruct (existsb (node_eqb n) seen) eqn:E; intros H; injection H as <-; [now apply S_visit_seen|now apply S_visit].
  - intros H; injection H as <-. apply S_fetch_end.
  - intros H; injection H as <-. apply (S_fetch w mayc a b [] n t2).
  - destruct run; [|discriminate]. intros H; injection H as <-. apply S_done.
Qed.
(** Follow a list of worker numbers, skipping workers that cannot go on. *)
Fixpoint follow (w : world) (is : list nat) (s : walk) : walk :=
  match is with [] => s | i :: r => follow w r (match sched w i s with Some t => t | None => s end) end.
Lemma wsteps_trans w mayc s t u : wsteps w mayc s t -> wsteps w mayc t u -> wsteps w mayc s u.
Proof. intros H1 H2. induction H2 as [|x y z H2 IH H3]; [assumption|]. eapply wsteps_step; [now apply IH|exact H3]. Qed.
Lemma follow_ok w mayc is : forall s, wsteps w mayc s (follow w is s).
Proof.
  induction is as [|i r IH]; intros s; [constructor|]. cbn [follow]. destruct (sched w i s) as [t|] eqn:E; [|apply IH].
  eapply wsteps_trans; [|apply IH]. eapply wsteps_step; [constructor|]. now apply sched_ok with (i := i).
Qed.

(** A directory with an entry in the root and two in a sub-shard that is not loaded. *)
Definition nc : bytes := [x63].
Definition wops : list hop := [HSetLink na (lnk x01); HSetLink nb (lnk x02); HReload; HSetLink nc (lnk x03)].
Definition wrun1 := hrun hash8 wops (dir256, good_store).
Definition wdir : shard := fst (snd wrun1).
Definition wworld : world := snd (snd wrun1).
Definition wcont : dir := contents dempty (fst wrun1).
Lemma wdir_reached : reached hash8 256 None wdir wworld wcont.
Proof. apply (reached_by 256 None dir256 good_store wops dir256_new). repeat constructor; discriminate. Qed.
Definition rounds (n : nat) : list nat := flat_map (fun _ => [1; 0]%nat) (seq 0 n).
Definition wend := follow wworld (rounds 40) (walk_start 2 wdir).
Lemma wend_case : wsteps wworld false (walk_start 2 wdir) wend /\ enum_returns wend (w_out wend) None /\ map lname (w_out wend) = [nc; na; nb] /\ wcont na = Some (1, rawn x01).
Proof.
  split; [apply follow_ok|]. split; [|split; vm_compute; reflexivity]. split; [|split; [reflexivity|left; vm_compute; reflexivity]].
  split; [|vm_compute; reflexivity]. assert (E : w_workers wend = [Exited; Exited]) by (vm_compute; reflexivity). rewrite E. repeat constructor.
Qed.
(** The sub-shard cannot be fetched. *)
Definition lost : world := mkWorld (w_has wworld) (w_added wworld) (w_calls wworld) (w_addok wworld) (fun n => match n with NRaw _ _ => true | NProto _ _ _ => false end).
Definition stopped (s : walk) : walk := mkWalk (w_workers s) (w_next s) (w_queue s) (w_prog s) false (w_seen s) (w_out s) (w_cancel s) (w_err s).
Lemma stopped_ok w mayc s : w_run s = true -> grp_done s = true -> wsteps w mayc s (stopped s).
Proof. destruct s as [ws nx q p run seen out c e]. cbn. intros -> G. eapply wsteps_step; [constructor|]. now apply S_stop. Qed.
Definition lostmid := follow lost (rounds 40) (walk_start 2 wdir).
Definition lostend := follow lost [1; 0]%nat (stopped lostmid).
Lemma lost_reached : reached hash8 256 None wdir lost wcont.
Proof.
  exists dir256, (mkWorld (w_has good_store) (w_added good_store) (w_calls good_store) (w_addok good_store) (w_getok lost)), wops, (fst wrun1).
  split; [exact dir256_new|]. split; [repeat constructor; discriminate|]. split; [|reflexivity]. vm_compute. reflexivity.
Qed.

Lemma lost_case : wsteps lost false (walk_start 2 wdir) lostend /\ enum_returns lostend (w_out lostend) (Some EFetch) /\ map lname (w_out lostend) = [nc].
Proof.
  split.
  - eapply wsteps_trans; [apply (follow_ok lost false (rounds 40))|]. eapply wsteps_trans; [apply stopped_ok; vm_compute; reflexivity|]. apply follow_ok.
  - split; [|vm_compute; reflexivity]. split; [|split; [reflexivity|left; vm_compute; reflexivity]].
    split; [|vm_compute; reflexivity]. assert (E : w_workers lostend = [Exited; Exited]) by (vm_compute; reflexivity). rewrite E. repeat constructor.
Qed.

(** Cancelled before the start. *)
Definition early (n : nat) (root : shard) : walk := mkWalk (repeat Exited n) (Some (mkJob [] [root])) [] 0 false [] [] true None.
Lemma exit_all w mayc nx q p seen out c e n : forall a, wsteps w mayc (mkWalk (a ++ repeat Idle n) nx q p false seen out c e) (mkWalk (a ++ repeat Exited n) nx q p false seen out c e).
Proof.
  induction n as [|n IH]; intros a; [constructor|]. cbn [repeat]. eapply wsteps_trans.
  - eapply wsteps_step; [constructor|]. apply S_exit.
  - specialize (IH (a ++ [Exited])). rewrite <- !app_assoc in IH. exact IH.
Qed.
Lemma early_ok w n root : wsteps w true (walk_start n root) (early n root).
Proof.
  eapply wsteps_trans; [|apply (exit_all w true _ _ _ _ _ _ _ n [])]. eapply wsteps_step; [eapply wsteps_step; [constructor|]|].
  - now apply S_cancel.
  - now apply S_stop.
Qed.
Lemma early_over n root : enum_returns (early n root) [] None.
Proof. split; [|split; [reflexivity|now left]]. split; [|reflexivity]. apply Forall_forall. intros x Hx. now apply repeat_spec in Hx. Qed.
Lemma cancelled_empty : exists s w d t, reached hash8 256 None s w d /\ d na <> None /\ wsteps w true (walk_start 32 s) t /\ enum_returns t [] None.
Proof.
  exists wdir, wworld, wcont, (early 32 wdir). split; [exact wdir_reached|]. split; [vm_compute; discriminate|]. split; [apply early_ok|apply early_over].
Qed.
