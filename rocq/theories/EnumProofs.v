(** The channel of a basic directory. *)
From Verif Require Import Base Pb PbProofs FSNode FSNodeProofs Dag DagProofs Builder HashBits SpecHash HashProofs Hamt SpecHamt HamtExec HamtRep HamtRun Walk Directory SpecDir DirExec DirBasic DirFacts HamtWitness DirWitness Enum.

(** What has been received and what is still to be sent are the links. *)
Definition einv (e : enum) : Prop :=
  match e_todo e with None => e_got e = [] /\ e_closed e = false | Some r => b_links (e_dir e) = e_got e ++ r /\ (e_closed e = true -> r = [] \/ e_cancelled e = true) end.

Lemma einv_start d : einv (enum_start d).
Proof. cbn. auto. Qed.
Lemma einv_step e e' : einv e -> estep e e' -> einv e'.
Proof. intros H S. destruct S; cbn in *; destruct H as [H H']; (split; [rewrite ?H, <- ?app_assoc; reflexivity|intros E; try discriminate; auto]). Qed.

(** The links received are a prefix of those of the directory at the moment they were read. *)
Definition eof (e : enum) : list link := match e_todo e with None => b_links (e_dir e) | Some r => e_got e ++ r end.
Lemma eof_step e e' : einv e -> estep e e' -> eof e' = eof e.
Proof. intros H S. destruct S; cbn in *; try reflexivity; [now destruct H as [-> _]|now rewrite <- app_assoc]. Qed.
Lemma eruns_inv e e' : einv e -> eruns e e' -> einv e' /\ eof e' = eof e /\ e_dir e' = e_dir e /\ e_cancelled e' = e_cancelled e /\ e_gone e' = e_gone e.
Proof.
  intros H R. induction R as [|e e1 e2 S R IH]; [auto|]. destruct (IH (einv_step _ _ H S)) as (I1 & I2 & I3 & I4 & I5). split; [exact I1|]. split; [now rewrite I2, (eof_step _ _ H S)|].
  destruct S; cbn in *; auto.
Qed.
Lemma eany_inv e e' : einv e -> eany e e' -> einv e'.
Proof.
  intros H R. induction R as [|e e1 e2 S R IH|e e1 e2 S R IH]; [auto|apply IH; eapply einv_step; eauto|]. apply IH. clear IH R. unfold einv in *. destruct S; cbn in *; try (destruct t; [destruct H; split; auto; intros; auto|]); auto.
Qed.

(** Measure of the steps left to the goroutine. *)
Definition eleft (e : enum) : nat := if e_closed e then 0%nat else match e_todo e with None => S (S (length (b_links (e_dir e)))) | Some r => S (length r) end.
Lemma eleft_step e e' : estep e e' -> (eleft e' < eleft e)%nat.
Proof. intros S. destruct S; cbn; lia. Qed.
Lemma no_infinite (f : nat -> enum) : ~ forall i, estep (f i) (f (S i)).
Proof.
  intros H. assert (X : forall m i, (eleft (f i) < m)%nat -> False); [|exact (X _ O (Nat.lt_succ_diag_r _))].
  induction m as [|m IH]; intros i L; [lia|]. apply (IH (S i)). pose proof (eleft_step _ _ (H i)). lia.
Qed.
Lemma eruns_trans e1 e2 e3 : eruns e1 e2 -> eruns e2 e3 -> eruns e1 e3.
Proof. induction 1; [auto|]. intros. econstructor; eauto. Qed.
Lemma ends e : exists e', eruns e e' /\ forall e'', ~ estep e' e''.
Proof.
  assert (D : forall e, (exists e', estep e e') \/ forall e', ~ estep e e').
  { intros [d t g c x z]. destruct z; [right; intros e' S; inversion S|]. destruct t as [[|l r]|]; [left; eexists; constructor| |left; eexists; constructor].
    destruct x; [|left; eexists; apply es_send]. destruct c; [left; eexists; apply es_quit|]. right. intros e' S. inversion S. }
  remember (eleft e) as m eqn:Em. revert e Em. induction m as [m IH] using lt_wf_ind. intros e ->. destruct (D e) as [[e1 S]|N]; [|exists e; split; [constructor|exact N]].
  destruct (IH _ (eleft_step _ _ S) e1 eq_refl) as (e2 & R & N). exists e2. split; [econstructor; eauto|exact N].
Qed.

(** A caller that goes on receiving gets every link once, and the channel is closed. *)
Lemma enum_complete d e : eruns (enum_start d) e -> (exists r, b_links d = e_got e ++ r) /\ (e_closed e = false -> exists e', estep e e') /\ (e_closed e = true -> e_got e = b_links d).
Proof.
  intros R. destruct (eruns_inv _ _ (einv_start d) R) as (I & E & E1 & E2 & E3). destruct e as [d' t g c x z]. cbn in *. subst d' c x. unfold eof, einv in *. cbn in *. destruct t as [r|].
  - split; [exists r; now rewrite E|]. split; [intros ->; destruct r; eexists; constructor|]. intros Hz. destruct I as [_ I]. destruct (I Hz) as [->|]; [now rewrite <- E, app_nil_r|discriminate].
  - destruct I as [-> Hz]. split; [exists (b_links d); reflexivity|]. split; [intros ->; eexists; constructor|congruence].
Qed.

(** Whatever the caller does, the goroutine is stuck for ever just if the caller has left
    without cancelling, and something is still to be sent. *)
Lemma stuck_iff e : e_closed e = false -> ((forall e', ~ estep e e') <-> e_gone e = true /\ e_cancelled e = false /\ exists l r, e_todo e = Some (l :: r)).
Proof.
  destruct e as [d t g c x z]. cbn. intros ->. split.
  - intros N. destruct t as [[|l r]|]; [exfalso; eapply N; constructor| |exfalso; eapply N; constructor]. destruct x; [|exfalso; eapply N; apply es_send]. destruct c; [exfalso; eapply N; apply es_quit|]. eauto.
  - intros (-> & -> & l & r & ->) e' S. inversion S.
Qed.
Lemma cancelled_ends e e' : e_cancelled e = true -> eruns e e' -> (forall e'', ~ estep e' e'') -> e_closed e' = true.
Proof.
  intros H R N. assert (C : e_cancelled e' = true) by (clear N; induction R as [|e e1 e2 S R IH]; [auto|]; apply IH; destruct S; auto).
  destruct (e_closed e') eqn:E; [reflexivity|]. apply (stuck_iff e' E) in N as (_ & N & _). congruence.
Qed.

(** Whatever the caller does: the links received are the first ones of the directory as it
    was when they were read, and a closed channel has delivered all of them unless the
    context was cancelled. *)
Lemma enum_any d e : eany (enum_start d) e -> (exists r, b_links (e_dir e) = e_got e ++ r) /\ (e_closed e = true -> e_got e = b_links (e_dir e) \/ e_cancelled e = true).
Proof.
  intros R. pose proof (eany_inv _ _ (einv_start d) R) as I. unfold einv in I. destruct (e_todo e) as [r|].
  - destruct I as [I1 I2]. split; [eauto|]. intros H. destruct (I2 H) as [->|]; [left; now rewrite app_nil_r in I1|now right].
  - destruct I as [-> ->]. split; [eexists; reflexivity|discriminate].
Qed.

(** With the contents of the directory. *)
Lemma enum_lists n b0 d0 ops w h b w' e : NewDirectoryFromNode n = Ok (DBasic b0) -> listing d0 (map named (node_links n)) -> brun ops (b0, w) = (h, (b, w')) -> eruns (enum_start b) e ->
  (e_closed e = true -> listing (dcontents d0 h) (map named (e_got e))) /\ (e_closed e = false -> exists e', estep e e') /\
  (forall f, f O = e -> ~ forall i, estep (f i) (f (S i))) /\ NoDup (map lname (e_got e)) /\ forall l, In l (e_got e) -> dcontents d0 h (lname l) = Some (lsize l, lto l).
Proof.
  intros E L R Re. destruct n as [p x|p x ls]; [discriminate|]. cbn [NewDirectoryFromNode node_links] in *. destruct (FSNodeFromBytes x) as [fsn| | |] eqn:Ef; try discriminate. cbn [rbind] in E.
  destruct (getType fsn =? TDirectory) eqn:Et; [|destruct (getType fsn =? THAMTShard); [destruct (NewHamtFromDag _); discriminate|discriminate]]. injection E as <-.
  assert (Hd : is_dir_data x) by (exists fsn; split; [assumption|lia]).
  assert (Hg : bgood (eq p) x d0 (newBasicDirectoryFromNode p x ls)) by (constructor; cbn [newBasicDirectoryFromNode b_prefix b_data b_links b_est]; auto using estimate).
  pose proof (brun_ok (eq p) x ops Hd d0 _ w Hg) as S. rewrite R in S. destruct S as (_ & _ & S3). pose proof (bg_list _ _ _ _ S3) as Hl. destruct (enum_complete b e Re) as ((r & Er) & C2 & C3).
  split; [intros Hz; now rewrite (C3 Hz)|]. split; [exact C2|]. split; [intros f _; apply no_infinite|]. destruct Hl as [N1 N2]. rewrite Er in N1, N2. rewrite !map_app in N1. rewrite map_map in N1. split.
  - rewrite <- (map_map named fst) in N1. apply nodup_app_l in N1. rewrite map_map in N1. exact N1.
  - intros l Hl. apply N2. apply in_map_iff. exists l. split; [reflexivity|]. apply in_or_app. now left.
Qed.

(** Examples. *)
Definition etwo : basic := fst (snd (brun [DAdd na ra] (bone, good_store))).
Definition l1 : link := match b_links etwo with l :: _ => l | [] => mkLink nb 1 rb end.
Definition l2 : link := match b_links etwo with _ :: l :: _ => l | _ => mkLink nb 1 rb end.
Lemma etwo_links : b_links etwo = [l1; l2].
Proof. reflexivity. Qed.
Lemma etwo_case : NewDirectoryFromNode onenode = Ok (DBasic bone) /\ snd (brun [DAdd na ra] (bone, good_store)) = (etwo, good_store) /\
  eruns (enum_start etwo) (mkEnum etwo (Some []) [l1; l2] false false true) /\ map named [l1; l2] = [(nb, node_entry rb); (na, node_entry ra)].
Proof.
  split; [exact (proj1 bsample_case)|]. split; [reflexivity|]. split; [|reflexivity].
  eapply er_step; [apply es_read|]. rewrite etwo_links. eapply er_step; [apply es_send|]. eapply er_step; [apply es_send|]. eapply er_step; [apply es_close|]. apply er_refl.
Qed.

(** A caller that leaves without cancelling keeps the goroutine for ever. *)
Lemma leak_case : exists e, eany (enum_start etwo) e /\ e_closed e = false /\ e_got e = [l1] /\ forall e', ~ estep e e'.
Proof.
  exists (mkEnum etwo (Some [l2]) [l1] false true false). split; [|split; [reflexivity|split; [reflexivity|]]].
  - eapply ea_step; [apply es_read|]. rewrite etwo_links. eapply ea_step; [apply es_send|]. eapply ea_caller; [apply ec_leave|]. apply ea_refl.
  - intros e' S. inversion S.
Qed.

(** The links are those of the directory at some later moment. *)
Lemma late_read : exists d d' k n e, bAddChild k n d = (Ok tt, d') /\ ecaller (enum_start d) (enum_start d') /\ eany (enum_start d) e /\ e_closed e = true /\ e_cancelled e = false /\ e_got e = b_links d' /\ length (e_got e) = S (length (b_links d)).
Proof.
  assert (A : bAddChild na ra bone = (Ok tt, etwo)) by reflexivity. assert (C : ecaller (enum_start bone) (enum_start etwo)) by (eapply ec_add; exact A).
  exists bone, etwo, na, ra, (mkEnum etwo (Some []) [l1; l2] false false true). split; [exact A|]. split; [exact C|]. split; [|repeat split].
  eapply ea_caller; [exact C|]. unfold enum_start. eapply ea_step; [apply es_read|]. rewrite etwo_links. eapply ea_step; [apply es_send|]. eapply ea_step; [apply es_send|]. eapply ea_step; [apply es_close|]. apply ea_refl.
Qed.

(** All the caller sees of a finished enumeration are the links received and that the channel
    is closed: an enumeration cut short by the context looks like a complete one. *)
Lemma cut_short : exists d d' e e', eany (enum_start d) e /\ eruns (enum_start d') e' /\ e_closed e = true /\ e_closed e' = true /\ e_got e = e_got e' /\ e_dir e = d /\ e_got e' = b_links d' /\ (length (b_links d') < length (b_links d))%nat.
Proof.
  exists etwo, bone, (mkEnum etwo (Some [l2]) [l1] true false true), (mkEnum bone (Some []) [l1] false false true). split; [|split; [|cbn; repeat split; auto]].
  - eapply ea_step; [apply es_read|]. rewrite etwo_links. eapply ea_step; [apply es_send|]. eapply ea_caller; [apply ec_cancel|]. eapply ea_step; [apply es_quit|]. apply ea_refl.
  - eapply er_step; [apply es_read|]. change (b_links bone) with [l1]. eapply er_step; [apply es_send|]. eapply er_step; [apply es_close|]. apply er_refl.
Qed.

(** An entry removed after the call is not delivered. *)
Lemma late_removal : exists d d' k e, bRemoveChild k d = (Ok tt, d') /\ ecaller (enum_start d) (enum_start d') /\ eany (enum_start d) e /\ e_closed e = true /\ e_cancelled e = false /\ e_gone e = false /\
  e_got e = b_links d' /\ S (length (e_got e)) = length (b_links d).
Proof.
  pose (d' := snd (bRemoveChild na etwo)). assert (A : bRemoveChild na etwo = (Ok tt, d')) by reflexivity. assert (C : ecaller (enum_start etwo) (enum_start d')) by (eapply ec_remove; exact A).
  exists etwo, d', na, (mkEnum d' (Some []) [l1] false false true). split; [exact A|]. split; [exact C|]. split; [|repeat split].
  eapply ea_caller; [exact C|]. unfold enum_start. eapply ea_step; [apply es_read|]. change (b_links d') with [l1]. eapply ea_step; [apply es_send|]. eapply ea_step; [apply es_close|]. apply ea_refl.
Qed.
