(** When the goroutine that feeds an iterator ends. *)
From Verif Require Import Base Pb FSNode Dag DagProofs Builder HashBits Bitfield SpecHash Hamt SpecHamt HamtExec HamtWitness Walk WalkWitness Directory SpecDir DirExec DirWitness Reader SpecResolve UnixFile SpecIter UnixFileProofs ReaderWitness FileWitness.

Definition left_todo (p : producer) : list link := match p with PSend td _ => td | _ => [] end.
Definition dist (p : producer) : nat := match p with PSend td _ => length td + 3 | PCloseErr => 2 | PCloseFiles => 1 | PDone => 0 end.
(** ForEachLink returns. *)
Definition returning (p : producer) : Prop := match p with PSend _ r => exists e, result_of r = Some e | _ => True end.

Section End.
  Variables (w : world) (mayc : bool).

  Lemma quiet_step t u : istep w mayc t u -> i_in t = false -> i_in u = false -> i_obs u = i_obs t ->
    dist (i_prod t) = S (dist (i_prod u)) /\ (length (i_buf u) + length (left_todo (i_prod u)) = length (i_buf t) + length (left_todo (i_prod t)))%nat /\
    (returning (i_prod t) -> returning (i_prod u)) /\ ((length (i_buf t) <= prefetchFiles)%nat -> (length (i_buf u) <= prefetchFiles)%nat).
  Proof.
    intros H H1 H2 H3. destruct H; cbn [i_prod i_buf i_in i_obs returns] in *; try discriminate.
    - cbn [dist left_todo length returning]. rewrite app_length. cbn [length]. split; [lia|]. split; [lia|]. split; [auto|lia].
    - cbn. auto.
    - cbn. auto.
    - cbn. auto.
    - cbn. auto.
    - exfalso. apply (f_equal (@length _)) in H3. rewrite app_length in H3. cbn in H3. lia.
  Qed.
  Lemma idle_inv j t u : idle w mayc j t u -> i_in t = false -> i_in u = false /\ i_obs u = i_obs t /\ (dist (i_prod t) = j + dist (i_prod u))%nat /\
    (length (i_buf u) + length (left_todo (i_prod u)) = length (i_buf t) + length (left_todo (i_prod t)))%nat /\ (returning (i_prod t) -> returning (i_prod u)) /\
    ((length (i_buf t) <= prefetchFiles)%nat -> (length (i_buf u) <= prefetchFiles)%nat).
  Proof.
    induction 1 as [|j s t u H IH H1 H2 H3]; intros Hin; [auto 10|]. destruct (IH Hin) as (I1 & I2 & I3 & I4 & I5 & I6). destruct (quiet_step _ _ H1 I1 H2 H3) as (Q1 & Q2 & Q3 & Q4).
    split; [exact H2|]. split; [congruence|]. split; [lia|]. split; [lia|]. split; auto.
  Qed.
  (** It can go on unless it is done or the channel is full. *)
  Lemma quiet_next t : i_in t = false -> returning (i_prod t) -> i_prod t = PDone \/ (length (i_buf t) >= prefetchFiles /\ left_todo (i_prod t) <> [])%nat \/
    exists u, istep w mayc t u /\ i_in u = false /\ i_obs u = i_obs t.
  Proof.
    intros Hin Hr. destruct t as [p buf c eb ec f ech e nm fl inn obs]. cbn [i_in i_prod i_buf i_obs] in *. subst inn. destruct p as [[|l td] r| | |]; cbn [returning] in Hr.
    - right. right. destruct Hr as [x Hr]. destruct r as [[]|y| |]; try discriminate; eexists; (split; [constructor|split; reflexivity]).
    - destruct (Nat.lt_ge_cases (length buf) prefetchFiles) as [H|H]; [|right; left; cbn; split; [exact H|discriminate]].
      right. right. eexists. split; [now constructor|split; reflexivity].
    - right. right. eexists. split; [constructor|split; reflexivity].
    - right. right. eexists. split; [constructor|split; reflexivity].
    - now left.
  Qed.
  Lemma idle_trans j k s t u : idle w mayc j s t -> idle w mayc k t u -> idle w mayc (j + k) s u.
  Proof.
    intros H1 H2. induction H2 as [|k s' t u H2 IH H3 H4 H5]; [now rewrite Nat.add_0_r|]. rewrite Nat.add_succ_r. eapply idle_S; eauto.
  Qed.
  Lemma reaches_done k : forall t, dist (i_prod t) = k -> i_in t = false -> returning (i_prod t) -> (length (i_buf t) + length (left_todo (i_prod t)) <= prefetchFiles)%nat ->
    exists u, idle w mayc k t u /\ i_prod u = PDone.
  Proof.
    induction k as [|k IH]; intros t Ed Hin Hr Hl.
    - exists t. split; [constructor|]. destruct (i_prod t); cbn in Ed; try lia; reflexivity.
    - destruct (quiet_next t Hin Hr) as [E|[[E1 E2]|(u & S1 & S2 & S3)]]; [rewrite E in Ed; discriminate| |].
      + exfalso. destruct (left_todo (i_prod t)); [congruence|]. cbn in Hl. lia.
      + destruct (quiet_step _ _ S1 Hin S2 S3) as (Q1 & Q2 & Q3 & _). destruct (IH u) as (v & V1 & V2); [lia|exact S2|auto|lia|]. exists v. split; [|exact V2].
        apply (idle_trans 1 k t u v); [|exact V1]. eapply idle_S; [constructor|eassumption..].
  Qed.

  (** An error was reported by a call of Next. *)
  Definition reported (t : iter) : Prop := i_err t <> None -> Exists (fun o => n_res o <> Ok true) (i_obs t).
  Lemma report_step t u : reported t -> istep w mayc t u -> reported u.
  Proof.
    intros H Hs. destruct Hs; unfold reported in *; cbn [i_err i_obs returns] in *; auto; try congruence;
      try (intros _; apply Exists_app; right; constructor; cbn; congruence).
    unfold openLink. cbn zeta. destruct (dserv_get w (lto l)) as [nd|x| |]; [destruct (NewUnixfsFile w nd)|..]; cbn [returns i_err i_obs]; try congruence; intros _; apply Exists_app; right; constructor; cbn; congruence.
  Qed.
  Lemma report_steps k s t : reported s -> isteps w mayc k s t -> reported t.
  Proof. intros H Hs. revert H. induction Hs as [|k s t u Hs IH H1]; intros H; [assumption|]. exact (report_step t u (IH H) H1). Qed.
  Lemma buf_step t u : istep w mayc t u -> (length (i_buf t) <= prefetchFiles)%nat -> (length (i_buf u) <= prefetchFiles)%nat.
  Proof.
    intros Hs. destruct Hs; cbn [i_buf returns length] in *; try lia; [rewrite app_length; cbn; lia|].
    destruct (open_same w l (mkIter p buf c eb ec true ech e nm fl true obs)) as (_ & -> & _). cbn. lia.
  Qed.
  Lemma ret_step t u : istep w mayc t u -> returning (i_prod t) -> returning (i_prod u).
  Proof.
    intros Hs. destruct Hs; cbn [i_prod returns returning]; auto.
    destruct (open_same w l (mkIter p buf c eb ec true ech e nm fl true obs)) as (-> & _). cbn. auto.
  Qed.
End End.

Definition all_true (t : iter) : Prop := Forall (fun o => n_res o = Ok true) (i_obs t).

Lemma entries_state w mayc cancel st ls r k t : production cancel st = (ls, r) -> (exists e, result_of r = Some e) -> isteps w mayc k (Entries cancel st) t ->
  iinv w mayc ls r t /\ reported t /\ returning (i_prod t) /\ (length (i_buf t) <= prefetchFiles)%nat.
Proof.
  intros Hp Hr Hs. assert (E : Entries cancel st = mkIter (PSend ls r) [] false None false true true None [] None false []) by (unfold Entries; now rewrite Hp). rewrite E in Hs.
  split; [eapply steps_inv; [apply start_inv|exact Hs]|]. split; [eapply report_steps; [|exact Hs]; unfold reported; cbn; congruence|].
  clear E Hp. remember (mkIter (PSend ls r) [] false None false true true None [] None false []) as s eqn:Es. induction Hs as [|k s t u Hs IH H1].
  - subst t. split; [exact Hr|cbn; unfold prefetchFiles; lia].
  - specialize (IH Es). destruct IH as [I1 I2]. split; [eapply ret_step; eassumption|eapply buf_step; eassumption].
Qed.

Lemma taken w mayc cancel st ls r k t : production cancel st = (ls, r) -> (exists e, result_of r = Some e) -> isteps w mayc k (Entries cancel st) t -> all_true t -> i_in t = false ->
  (length ls = length (i_obs t) + (length (i_buf t) + length (left_todo (i_prod t))))%nat /\ returning (i_prod t) /\ (length (i_buf t) <= prefetchFiles)%nat.
Proof.
  intros Hp Hr Hs Ha Hin. destruct (entries_state _ _ _ _ _ _ _ _ Hp Hr Hs) as ((done & todo & HL & [HC HF] & HT) & Rp & Rt & Hb). split; [|auto].
  assert (Et : left_todo (i_prod t) = todo) by (destruct (i_prod t); cbn; [destruct HC as (HC & _); exact HC|destruct HC as (-> & _); reflexivity..]). rewrite Et, HL, !app_length. f_equal.
  unfold all_true in Ha. destruct HT as [HT|[HT|HT]].
  - destruct HT as (_ & os & fs & Ho & Hy & Hfs & _). rewrite Ho in *. apply Forall_app in Ha as [_ Ha]. destruct fs as [|f fs].
    + rewrite app_nil_r. clear - Hy. induction Hy; cbn; congruence.
    + exfalso. apply Forall_cons_iff in Ha as [Ha _]. apply Forall_cons_iff in Hfs as [[Hf _] _]. congruence.
  - exfalso. destruct HT as (x & _ & _ & _ & _ & E & _). assert (X : Exists (fun o => n_res o <> Ok true) (i_obs t)) by (apply Rp; congruence).
    apply Exists_exists in X as (o & X1 & X2). rewrite Forall_forall in Ha. now apply X2, Ha.
  - exfalso. destruct HT as (_ & _ & E & _). unfold alive in E. assert (X : forallb (fun o => match n_res o with Ok _ => true | _ => false end) (i_obs t) = true); [|congruence].
    apply forallb_forall. intros o Ho. rewrite Forall_forall in Ha. now rewrite (Ha o Ho).
Qed.

(** After [length (i_obs t)] entries the client stops: the goroutine ends if and only if at
    most four links are left. *)
Lemma ends_iff : forall w mayc cancel st ls r k t, production cancel st = (ls, r) -> (exists e, result_of r = Some e) -> isteps w mayc k (Entries cancel st) t -> all_true t -> i_in t = false ->
  ((exists j u, idle w mayc j t u /\ i_prod u = PDone) <-> (length ls <= length (i_obs t) + prefetchFiles)%nat).
Proof.
  intros w mayc cancel st ls r k t Hp Hr Hs Ha Hin. destruct (taken _ _ _ _ _ _ _ _ Hp Hr Hs Ha Hin) as (HL & Rt & Hb). split.
  - intros (j & u & Hj & Hd). destruct (idle_inv _ _ _ _ _ Hj Hin) as (_ & _ & _ & I4 & _ & I6). rewrite Hd in I4. cbn [left_todo length] in I4. specialize (I6 Hb). lia.
  - intros Hl. destruct (reaches_done w mayc _ t eq_refl Hin Rt ltac:(lia)) as (u & U1 & U2). eauto.
Qed.
(** Then it does so whatever the schedule. *)
Lemma ends_always : forall w mayc cancel st ls r k t, production cancel st = (ls, r) -> (exists e, result_of r = Some e) -> isteps w mayc k (Entries cancel st) t -> all_true t -> i_in t = false ->
  (length ls <= length (i_obs t) + prefetchFiles)%nat -> forall j u, idle w mayc j t u ->
  (j <= length ls + 3)%nat /\ (i_prod u = PDone \/ exists v, idle w mayc (S j) t v).
Proof.
  intros w mayc cancel st ls r k t Hp Hr Hs Ha Hin Hl j u Hj. destruct (taken _ _ _ _ _ _ _ _ Hp Hr Hs Ha Hin) as (HL & Rt & Hb).
  destruct (idle_inv _ _ _ _ _ Hj Hin) as (I1 & I2 & I3 & I4 & I5 & I6). split.
  - assert (dist (i_prod t) <= length (left_todo (i_prod t)) + 3)%nat by (destruct (i_prod t); cbn; lia). lia.
  - destruct (quiet_next w mayc u I1 (I5 Rt)) as [E|[[E1 E2]|(v & S1 & S2 & S3)]]; [now left| |right; exists v; eapply idle_S; eassumption].
    exfalso. destruct (left_todo (i_prod u)); [congruence|]. cbn in I4. lia.
Qed.
(** When Next has returned false without an error it has ended. *)
Lemma drained : forall w mayc cancel st ls r k t o, production cancel st = (ls, r) -> (exists e, result_of r = Some e) -> isteps w mayc k (Entries cancel st) t ->
  In o (i_obs t) -> n_res o = Ok false -> n_err o = None -> i_prod t = PDone.
Proof.
  intros w mayc cancel st ls r k t o Hp Hr Hs Ho H1 H2. destruct (entries_state _ _ _ _ _ _ _ _ Hp Hr Hs) as ((done & todo & HL & [HC HF] & HT) & _ & _ & _).
  assert (Y : forall d os, Forall2 (yields w) d os -> In o os -> False).
  { intros d os Hy Hi. clear - Hy Hi H1. induction Hy as [|l x d os (f & _ & E & _) Hy IH]; [destruct Hi|]. destruct Hi as [->|Hi]; [congruence|auto]. }
  destruct HT as [HT|[HT|HT]].
  - destruct HT as (_ & os & fs & Eo & Hy & Hfs & Hn). rewrite Eo in Ho. apply in_app_iff in Ho as [Ho|Ho]; [destruct (Y _ _ Hy Ho)|].
    destruct Hn as [F1 F2]; [intros ->; destruct Ho|]. destruct (HF F1) as [F3 _]. destruct (i_prod t); [destruct HC as (_ & _ & _ & _ & E & _); congruence|..]; destruct HC as (_ & _ & HC); now apply HC.
  - exfalso. destruct HT as (x & d0 & rest & os & fs & _ & _ & _ & Eo & Hy & Hfs & _). rewrite Eo in Ho. apply in_app_iff in Ho as [Ho|Ho]; [exact (Y _ _ Hy Ho)|].
    rewrite Forall_forall in Hfs. destruct (Hfs o Ho) as [_ E]. congruence.
  - exfalso. destruct HT as (_ & _ & Al & HT).
    assert (Yt : forall d os, Forall2 (yields w) d os -> alive os = true) by (intros d os Hy; clear - Hy; induction Hy as [|l x d os (f & _ & E & _) Hy IH]; cbn; [reflexivity|now rewrite E]).
    assert (Ft : forall e fs, Forall (finishes e) fs -> alive fs = true) by (intros e fs Hf; clear - Hf; induction Hf as [|x fs [E _] Hf IH]; cbn; [reflexivity|now rewrite E]).
    inversion HT as [d0 rest os X1 X2 X3|os fs X1 X2 X3 X4|d0 rest x os fs X1 X2 X3 X4 X5|d0 l rest os o' X1 X2 X3 X4].
    + exact (Y _ _ X2 Ho).
    + rewrite <- X4 in Al. unfold alive in Al. rewrite forallb_app in Al. fold (alive os) (alive fs) in Al. rewrite (Yt _ _ X1), (Ft _ _ X3) in Al. discriminate.
    + rewrite <- X5 in Al. unfold alive in Al. rewrite forallb_app in Al. fold (alive os) (alive fs) in Al. rewrite (Yt _ _ X2), (Ft _ _ X3) in Al. discriminate.
    + rewrite <- X4 in Ho. apply in_app_iff in Ho as [Ho|[<-|[]]]; [exact (Y _ _ X2 Ho)|]. destruct X3 as [[_ X]|[_ X]]; congruence.
Qed.

(** ** Directories *)

Lemma listing_prefix_len d (es a r : list (bytes * dentry)) : listing d es -> listing d (a ++ r) -> (length a <= length es)%nat /\ (r = [] -> length a = length es).
Proof.
  intros [N1 H1] [N2 H2]. assert (Q : forall x y : list (bytes * dentry), NoDup (map fst x) -> (forall k e, In (k, e) x -> In (k, e) y) -> (length x <= length y)%nat).
  { intros x y Hx Hi. rewrite <- (map_length fst x), <- (map_length fst y). apply NoDup_incl_length; [exact Hx|]. intros k Hk. apply in_map_iff in Hk as ([k1 e1] & <- & Hk). apply in_map. auto. }
  pose proof (Q (a ++ r) es N2 (fun k e H => proj2 (H1 k e) (proj1 (H2 k e) H))) as L1. rewrite app_length in L1. split; [lia|]. intros ->. rewrite app_nil_r in *.
  pose proof (Q es a N1 (fun k e H => proj2 (H2 k e) (proj1 (H1 k e) H))) as L2. cbn in L1. lia.
Qed.

Section Dir.
  Variables (hash : bytes -> bytes) (n : nat) (W : Z).
  Hypothesis Hn : (2 <= n)%nat.
  Hypothesis Hh : forall k, length (hash k) = n.
  Hypothesis Hv : valid_width W.

  Lemma dir_ends_iff b st d es w mayc k t : dir_holds hash W b st d -> listing d es -> ~ unreachable (snd st) -> isteps w mayc k (Entries None st) t ->
    Forall (fun o => n_res o = Ok true) (i_obs t) -> i_in t = false ->
    ((exists j u, idle w mayc j t u /\ i_prod u = PDone) <-> (length es <= length (i_obs t) + prefetchFiles)%nat).
  Proof using Hn Hh Hv.
    intros Hd He Hu Hs Ha Hin. destruct (production None st) as [ls r] eqn:Hp. destruct (production_ok hash n W Hn Hh Hv b st d None ls r Hd Hp) as (rest & Hl & Hr).
    destruct r as [[]|x| |]; cbn in Hr; try contradiction; [|destruct Hr as [[_ Hr]|[_ Hr]]; [contradiction|congruence]]. destruct (listing_prefix_len _ _ _ _ He Hl) as [_ L]. rewrite map_length in L. rewrite <- (L Hr).
    eapply ends_iff; [exact Hp|eexists; reflexivity|eassumption..].
  Qed.
  Lemma dir_ends_always b st d es w mayc cancel k t : dir_holds hash W b st d -> listing d es -> isteps w mayc k (Entries cancel st) t -> Forall (fun o => n_res o = Ok true) (i_obs t) -> i_in t = false ->
    ((length es <= length (i_obs t) + prefetchFiles)%nat \/ exists i, cancel = Some i /\ (i <= length (i_obs t) + prefetchFiles)%nat) ->
    forall j u, idle w mayc j t u -> (j <= length es + 3)%nat /\ (i_prod u = PDone \/ exists v, idle w mayc (S j) t v).
  Proof using Hn Hh Hv.
    intros Hd He Hs Ha Hin Hi j u Hj. destruct (production cancel st) as [ls r] eqn:Hp. destruct (production_ok hash n W Hn Hh Hv b st d cancel ls r Hd Hp) as (rest & Hl & Hr).
    destruct (listing_prefix_len _ _ _ _ He Hl) as [L _]. rewrite map_length in L.
    assert (Hle : (length ls <= length (i_obs t) + prefetchFiles)%nat).
    { destruct Hi as [Hi|(i & -> & Hi)]; [lia|]. unfold production in Hp. destruct (dEach _ st) as [[r0 acc] st']. injection Hp as <- _. rewrite firstn_length. lia. }
    destruct (ends_always w mayc cancel st ls r k t Hp) with (j := j) (u := u) as [B1 B2]; try assumption; [destruct r as [[]|x| |]; try contradiction; eexists; reflexivity|].
    split; [lia|exact B2].
  Qed.
  Lemma dir_drained b st d w mayc cancel k t o : dir_holds hash W b st d -> isteps w mayc k (Entries cancel st) t -> In o (i_obs t) -> n_res o = Ok false -> n_err o = None -> i_prod t = PDone.
  Proof using Hn Hh Hv.
    intros Hd Hs Ho H1 H2. destruct (production cancel st) as [ls r] eqn:Hp. destruct (production_ok hash n W Hn Hh Hv b st d cancel ls r Hd Hp) as (rest & _ & Hr).
    eapply drained; [exact Hp| |eassumption..]. destruct r as [[]|x| |]; try contradiction; eexists; reflexivity.
  Qed.
End Dir.

(** ** Instances *)

(** Two of six entries taken: the goroutine ends alone. *)
Definition two_taken : iter := snd (sched full 9 (Entries None six)).
Lemma ends_case : exists k t ls, dir_holds hash8 256 None six (dcont full hsix) /\ production None six = (ls, Ok tt) /\ length ls = 6%nat /\ isteps full false k (Entries None six) t /\ length (i_obs t) = 2%nat /\ all_true t /\ i_in t = false /\ i_prod t <> PDone.
Proof.
  exists (fst (sched full 9 (Entries None six))), two_taken, (fst (production None six)). split; [left; exact six_reached|]. split; [vm_compute; reflexivity|]. split; [vm_compute; reflexivity|]. split; [apply sched_ok|].
  split; [vm_compute; reflexivity|]. split; [unfold all_true; replace (i_obs two_taken) with (map (fun o => mkNext (Ok true) (n_name o) (n_file o) (n_err o)) (i_obs two_taken)) by (vm_compute; reflexivity); apply Forall_map, Forall_forall; reflexivity|].
  split; [vm_compute; reflexivity|]. assert (E : match i_prod two_taken with PDone => false | _ => true end = true) by (vm_compute; reflexivity). intros X. rewrite X in E. discriminate.
Qed.
Lemma in_last {A} (l : list A) d n : length l = S n -> In (last l d) l.
Proof.
  intros H. destruct l as [|x l]; [discriminate|]. rewrite (app_removelast_last d (l := x :: l)) at 2 by discriminate. apply in_app_iff. right. now left.
Qed.
Lemma drained_case : exists k t o, isteps full false k (Entries None six) t /\ In o (i_obs t) /\ n_res o = Ok false /\ n_err o = None.
Proof.
  set (t := snd (sched full 28 (Entries None six))). exists (fst (sched full 28 (Entries None six))), t, (last (i_obs t) (mkNext Panic [] None None)). split; [apply sched_ok|].
  split; [|split; vm_compute; reflexivity]. apply (in_last _ _ 7). vm_compute. reflexivity.
Qed.

(** The client goes on until Next returns false, which it does because of an error; more
    than four entries are left. *)
Lemma stuck_failed w mayc l r R x s : i_prod s = PSend (l :: r) R -> length (i_buf s) = prefetchFiles -> i_in s = false -> i_err s = Some x ->
  forall k t, isteps w mayc k s t -> i_prod t = i_prod s /\ i_buf t = i_buf s /\ i_in t = false /\ i_err t = Some x.
Proof.
  intros H1 H2 H3 H4 k t Hs. induction Hs as [|k s t u Hs IH Hst]; [auto|]. destruct (IH H1 H2 H3 H4) as (I1 & I2 & I3 & I4). rewrite H1 in I1. rewrite <- I2 in H2. rewrite H1, <- I2. clear IH Hs.
  destruct Hst; cbn [i_prod i_buf i_in i_err returns] in *; try discriminate; auto. lia.
Qed.
Definition notfile : node := NProto v0prefix [xff] [].
Definition hseven : list (Z * dop) := [(0, DAdd na notfile); (0, DAdd nb rb); (0, DAdd nc inner); (0, DAdd ba ra); (0, DAdd bb rb); (0, DAdd nlong ra)].
Definition seven : directory * world := dstate full hseven.
Lemma seven_reached : dreached hash8 256 None seven (dcont full hseven).
Proof. dreach. Qed.
Lemma error_leaks : exists st d k t o x, dir_holds hash8 256 None st d /\ ~ unreachable (snd st) /\ isteps full false k (Entries None st) t /\ i_obs t = [o] /\ n_res o = Ok false /\ n_err o = Some x /\
  i_prod t <> PDone /\ forall j u, isteps full false j t u -> i_prod u = i_prod t.
Proof.
  set (t := snd (sched full 7 (Entries None seven))). exists seven, (dcont full hseven), (fst (sched full 7 (Entries None seven))), t, (hd (mkNext Panic [] None None) (i_obs t)).
  assert (E1 : i_prod t = PSend [mkLink nlong 1 ra] (Ok tt)) by (vm_compute; reflexivity). assert (E2 : length (i_buf t) = prefetchFiles) by (vm_compute; reflexivity). assert (E3 : i_in t = false) by (vm_compute; reflexivity).
  assert (E4 : i_err t = Some EUnexpectedEOF) by (vm_compute; reflexivity). exists EUnexpectedEOF. split; [left; exact seven_reached|].
  split; [intros [y H]; revert H; replace (w_getok (snd seven)) with (fun _ : node => true) by (vm_compute; reflexivity); discriminate|]. split; [apply sched_ok|].
  split; [vm_compute; reflexivity|]. split; [vm_compute; reflexivity|]. split; [vm_compute; reflexivity|]. split; [rewrite E1; discriminate|].
  intros j u Hu. now destruct (stuck_failed _ _ _ _ _ _ _ E1 E2 E3 E4 _ _ Hu).
Qed.
