(** Runs with several modifiers and nodes in hand. *)
From Verif Require Import Base Pb FSNode Dag DagProofs Builder Trickle Importer Reader Modifier Directory SpecModifier Alias SpecAlias AliasProofs ModifierRun.
From Coq Require Import Permutation.

(** ** Calls that change no link *)

Definition heap_of (s : hst) : heap := fst (snd s).
Definition ptrs_of (s : hst) : list addr := snd (snd s).
Definition quiet_at {A} (x : N hst A) (s : hst) : Prop := forall r s', x s r s' -> exists new, heap_of s' = heap_of s ++ new.
Definition quiet {A} (x : N hst A) : Prop := forall s, quiet_at x s.

Lemma q_bind_at {A B} (x : N hst A) (k : A -> N hst B) s : quiet_at x s -> (forall a s1, x s (Ok a) s1 -> quiet_at (k a) s1) -> quiet_at (hbind x k) s.
Proof.
  intros Hx Hk r s' [(a & s1 & X1 & X2)|[(e & X1 & ->)|[(X1 & ->)|(X1 & ->)]]]; destruct (Hx _ _ X1) as (n1 & E1); eauto.
  destruct (Hk a s1 X1 r s' X2) as (n2 & E2). exists (n1 ++ n2). now rewrite E2, E1, app_assoc.
Qed.
Lemma q_bind {A B} (x : N hst A) (k : A -> N hst B) : quiet x -> (forall a, quiet (k a)) -> quiet (hbind x k).
Proof. intros Hx Hk s. apply q_bind_at; [apply Hx|]. intros a s1 _. apply Hk. Qed.
Lemma q_same {A} (f : M mst A) : quiet (same f).
Proof. intros s r s' [_ E]. exists []. unfold heap_of. rewrite E. now rewrite app_nil_r. Qed.
Lemma q_append {A} (f : M mst A) : quiet (append_ptrs f).
Proof. intros s r s' (_ & kept & new & _ & _ & E & _). now exists new. Qed.
Lemma q_truncate size : quiet (htruncate_cur size).
Proof.
  intros [[m w] [h ps]] r s' X. unfold htruncate_cur in X. destruct (m_node m) as [[p d|p b ls]|]; [eapply q_same; exact X| |eapply q_same; exact X].
  destruct ps as [|a ps]; [eapply q_same; exact X|]. destruct X as [_ X]. unfold heap_of. cbn [fst snd].
  destruct r as [nn|e| |]; [|rewrite X; exists []; now rewrite app_nil_r..]. destruct X as (f & fu & e & mo & f' & w1 & _ & _ & _ & X). rewrite X. eexists. reflexivity.
Qed.
Lemma q_expand size : quiet (hexpandSparse size).
Proof. apply q_bind; [apply q_append|intros nn; apply q_same]. Qed.
Lemma q_map {A B} (g : A -> B) x s : quiet_at x s -> quiet_at (hmap g x) s.
Proof. intros H r s' (q & X & _). eapply H. exact X. Qed.

Section Run.
  Variable split : bytes -> list bytes.
  Variable wbsize : Z.

  Lemma q_Sync s : m_buf (fst (fst s)) = None -> quiet_at (hSync split) s.
  Proof.
    destruct s as [[m w] [h ps]]. cbn [fst]. intros Hb. apply q_bind_at; [apply q_same|]. intros m0 s1 [E1 E2]. unfold get_mod in E1. cbn [fst] in E1. injection E1 as E1 _.
    subst m0. rewrite Hb. apply q_same.
  Qed.
  Lemma q_synced {A} (k : unit -> N hst A) s : m_buf (fst (fst s)) = None -> (forall u, quiet (k u)) -> quiet_at (hbind (hSync split) k) s.
  Proof. intros Hb Hk. apply q_bind_at; [now apply q_Sync|]. intros u s1 _. apply Hk. Qed.

  Lemma q_hop op s : writes op = false -> m_buf (fst (fst s)) = None -> quiet_at (hop split wbsize op) s.
  Proof.
    intros Hw Hb. destruct op; try discriminate; apply q_map; try (apply q_synced; [exact Hb|intros _]).
    - repeat (apply q_bind; [first [apply q_same|destruct (_ <? _); [apply q_expand|apply q_same]]|intros ?]).
      apply q_bind; [|intros ?; apply q_same]. destruct (m_read _); [apply q_bind; [|intros ?]|]; apply q_same.
    - apply q_bind; [apply q_same|intros real]. destruct (_ =? _); [apply q_same|]. destruct (_ <? _); [apply q_expand|].
      apply q_bind; [apply q_truncate|intros nn]. apply q_bind; [|intros ?]; apply q_same.
    - apply q_same.
    - apply q_same.
    - now apply q_Sync.
    - apply q_same.
  Qed.

  (** ** After Sync *)

  Lemma hbind_Ok {A B} (x : N hst A) (k : A -> N hst B) s b s' : hbind x k s (Ok b) s' -> exists a s1, x s (Ok a) s1 /\ k a s1 (Ok b) s'.
  Proof. intros [(a & s1 & X)|[(e & X & E)|[(X & E)|(X & E)]]]; try discriminate. eauto. Qed.

  Definition above (n : nat) (s : hst) : Prop := (n <= length (heap_of s))%nat /\ forall a, In a (ptrs_of s) -> (n <= a)%nat.
  Lemma above_frame n s s' : above n s -> hframe s s' -> above n s'.
  Proof.
    destruct s as [x [h ps]], s' as [x' [h' ps']]. unfold above, heap_of, ptrs_of. cbn. intros [A1 A2] (F1 & F2 & F3 & F4). split; [lia|].
    intros a Ha. destruct (F4 a Ha); [auto|lia].
  Qed.

  Lemma Sync_above s u s' : hok s -> m_buf (fst (fst s)) <> None -> hSync split s (Ok u) s' -> above (length (heap_of s)) s'.
  Proof.
    destruct s as [[m w] [h ps]]. cbn [fst]. set (s := ((m, w), (h, ps)) : hst) in *. intros Hs Hb H. unfold hSync in H.
    apply hbind_Ok in H as (m0 & s1 & X & H). pose proof (sim_same _ k_get s Hs _ _ X) as (E & O & F). unfold get_mod in E. cbn [fst s] in E. injection E as E _. subst m0. clear X.
    destruct (m_buf m) as [buf0|]; [|congruence].
    apply hbind_Ok in H as (u1 & s2 & X2 & H). pose proof (sim_same _ (k_upd (m_set_read None) (fun _ => eq_refl)) s1 O _ _ X2) as (_ & O2 & F2). 
    apply hbind_Ok in H as (n0 & s3 & X3 & H). pose proof (sim_same _ k_cur s2 O2 _ _ X3) as (_ & O3 & F3).
    apply hbind_Ok in H as (fs & s4 & X4 & H). pose proof (sim_same _ (k_lift _) s3 O3 _ _ X4) as (_ & O4 & F4).
    apply hbind_Ok in H as (u5 & s5 & X5 & H).
    assert (O5 : hok s5 /\ hframe s4 s5).
    { destruct (_ <? _); [destruct (proj1 (f_expand _) s4 O4 _ _ X5) as (_ & A & B)|destruct (sim_same _ (k_ret tt) s4 O4 _ _ X5) as (_ & A & B)]; auto. }
    destruct O5 as [O5 F5].
    apply hbind_Ok in H as (k & s6 & X6 & H). pose proof (sim_modify s5 O5 _ _ X6) as (_ & O6 & F6).
    apply hbind_Ok in H as (u7 & s7 & X7 & H). pose proof (sim_fresh _ s6 O6 _ _ X7) as (_ & O7 & F7).
    apply hbind_Ok in H as (m8 & s8 & X8 & H). pose proof (sim_same _ k_get s7 O7 _ _ X8) as (_ & O8 & F8).
    apply hbind_Ok in H as (u9 & s9 & X9 & H).
    assert (O9 : hok s9 /\ hframe s8 s9).
    { destruct (m_buf m8) as [[|x0 buf]|].
      - destruct (sim_same _ (k_ret tt) s8 O8 _ _ X9) as (_ & A & B); auto.
      - destruct (sim_bind _ _ _ (fun nn => mod_add nn) (sim_append _) (fun nn => sim_same _ (k_add nn)) s8 O8 _ _ X9) as (_ & A & B); auto.
      - destruct (sim_same _ (k_ret tt) s8 O8 _ _ X9) as (_ & A & B); auto. }
    destruct O9 as [O9 F9].
    assert (F10 : hframe s9 s') by (match type of H with same (upd_mod ?f) _ _ _ => destruct (sim_same _ (k_upd f (fun _ => eq_refl)) s9 O9 _ _ H) as (_ & _ & F10) end; exact F10).
    assert (L : (length (heap_of s) <= length (heap_of s6))%nat).
    { pose proof (hframe_trans _ _ _ F (hframe_trans _ _ _ F2 (hframe_trans _ _ _ F3 (hframe_trans _ _ _ F4 (hframe_trans _ _ _ F5 F6))))) as T.
      destruct s6 as [? [h6 ps6]]. apply T. }
    assert (A7 : above (length (heap_of s)) s7).
    { destruct X7 as [_ X7]. unfold above, heap_of, ptrs_of in *. rewrite X7. cbn [fst snd]. split; [rewrite app_length; lia|]. intros a Ha. apply in_seq in Ha. lia. }
    eapply above_frame; [|exact F10]. eapply above_frame; [|exact F9]. eapply above_frame; [|exact F8]. exact A7.
  Qed.

  Lemma above_same {A} (f : M mst A) n s r s' : above n s -> same f s r s' -> above n s'.
  Proof. intros H [_ E]. unfold above, heap_of, ptrs_of in *. now rewrite E. Qed.
  Lemma above_sim {A} (x : N hst A) f n s r s' : above n s -> hok s -> sim x f -> x s r s' -> above n s'.
  Proof. intros H Hs Hx X. destruct (Hx s Hs _ _ X) as (_ & _ & F). eapply above_frame; eassumption. Qed.

  Lemma hop_above op s x s' : hok s -> syncs op = true -> m_buf (fst (fst s)) <> None -> hop split wbsize op s (Ok x) s' -> above (length (heap_of s)) s'.
  Proof.
    intros Hs Hy Hb H.
    assert (HK : forall (A : Type) (k : unit -> N hst A) y s2, hbind (hSync split) k s (Ok y) s2 -> exists u s1, above (length (heap_of s)) s1 /\ hok s1 /\ k u s1 (Ok y) s2).
    { intros A k y s2 X. apply hbind_Ok in X as (u & s1 & X1 & X2). exists u, s1. split; [eapply Sync_above; eassumption|]. split; [|exact X2].
      eapply (proj1 (f_Sync split)); eassumption. }
    destruct op; try discriminate; destruct H as (q & X & E); destruct q as [y|e| |]; try discriminate.
    - apply HK in X as (u & s1 & A & O & X). revert X. eapply above_sim with (f := bind mSize _); [exact A|exact O|]. apply sim_bind; [apply sim_same, k_size|intros fi].
      apply sim_bind; [apply sim_same, k_get|intros m]. eapply (sim_bind _ _ (if whence =? 1 then ret (u64 (m_off m + u64 off)) else if whence =? 0 then ret (u64 off) else if whence =? 2 then ret (u64 (u64 fi - u64 off)) else throw EInvalidWhence));
        [apply sim_same; repeat (match goal with |- keeps_node (if ?b then _ else _) => destruct b end); apply k_ret || apply k_throw|intros new].
      apply (sim_bind _ _ (if fi <? i64 new then expandSparse (i64 (i64 new - fi)) else ret tt) (fun _ => bind (upd_mod (fun m => m_set_start new (m_set_off new m))) (fun _ =>
        bind get_mod (fun m1 => bind (match m_read m1 with Some _ => bind (read_seek off whence) (fun _ => ret tt) | None => ret tt end) (fun _ => ret (i64 new)))))).
      + destruct (_ <? _); [apply f_expand|apply sim_same, k_ret].
      + intros _. apply sim_bind; [apply sim_same, k_upd; reflexivity|intros _]. apply sim_bind; [apply sim_same, k_get|intros m1]. apply sim_bind; [|intros _; apply sim_same, k_ret].
        destruct (m_read m1); [|apply sim_same, k_ret]. apply sim_bind; [apply sim_same, k_read_seek|intros _; apply sim_same, k_ret].
    - apply HK in X as (u & s1 & A & O & X). apply hbind_Ok in X as (real & s2 & X1 & X). pose proof (above_same _ _ _ _ _ A X1) as A2. destruct (sim_same _ k_size s1 O _ _ X1) as (_ & O2 & _).
      destruct (_ =? _); [eapply above_same; eassumption|]. destruct (_ <? _); [eapply above_sim; [exact A2|exact O2|apply f_expand|exact X]|].
      apply hbind_Ok in X as (nn & s3 & X2 & X). pose proof (above_sim _ _ _ _ _ _ A2 O2 (sim_truncate _) X2) as A3. apply hbind_Ok in X as (u3 & s4 & X3 & X).
      eapply above_same; [|exact X]. eapply above_same; eassumption.
    - apply HK in X as (u & s1 & A & O & X). eapply above_same; eassumption.
    - eapply Sync_above; eassumption.
    - apply HK in X as (u & s1 & A & O & X). eapply above_same; eassumption.
  Qed.

End Run.

(** ** States *)


  Definition mod_ok (h : heap) (x : modifier * list addr) : Prop :=
    ptrs_ok h (snd x) /\ match m_node (fst x) with Some (NProto _ _ _) => True | _ => snd x = [] end.
  Definition st_ok (st : hstate) : Prop :=
    Forall (mod_ok (h_heap st)) (h_mods st) /\ Forall (fun o => ptrs_ok (h_heap st) (obj_ptrs o)) (h_held st).

  Lemma refresh_ok h ps m w : mod_ok h (m, ps) -> hok ((refresh h ps m, w), (h, ps)).
  Proof.
    intros [H1 H2]. cbn [fst snd] in *. split; [exact H1|]. unfold refresh, cur_links. destruct (m_node m) as [[p d|p b ls]|] eqn:En.
    - subst ps. now rewrite En.
    - destruct (node_eqb _ _) eqn:E; [|reflexivity]. apply node_eqb_eq in E. rewrite En. cbn [node_links]. congruence.
    - subst ps. now rewrite En.
  Qed.
  Lemma refresh_buf h ps m : m_buf (refresh h ps m) = m_buf m.
  Proof. unfold refresh. destruct (m_node m) as [[p d|p b ls]|]; try reflexivity. destruct (node_eqb _ _); reflexivity. Qed.
  Lemma refresh_id h ps m : view h ps = cur_links m -> refresh h ps m = m.
  Proof. intros H. unfold refresh, cur_links in *. destruct (m_node m) as [[p d|p b ls]|]; try reflexivity. cbn in H. rewrite H, node_eqb_refl. reflexivity. Qed.
  Lemma hok_mod m w h ps : hok ((m, w), (h, ps)) -> mod_ok h (m, ps).
  Proof.
    intros [H1 H2]. split; [exact H1|]. cbn [fst snd]. unfold cur_links in H2. destruct (m_node m) as [[p d|p b ls]|]; cbn in H2; try exact I; now destruct ps.
  Qed.

  Lemma ptrs_grow h h' ps : (length h <= length h')%nat -> ptrs_ok h ps -> ptrs_ok h' ps.
  Proof. intros L [H1 H2]. split; [exact H1|]. eapply Forall_impl; [|exact H2]. cbn. lia. Qed.
  Lemma set_nth_forall {A} (P : A -> Prop) i x l : Forall P l -> P x -> Forall P (set_nth i x l).
  Proof. revert i. induction l as [|y l IH]; intros [|i] H Hx; cbn; auto; inversion H; subst; constructor; auto. Qed.
  Lemma set_nth_length {A} i (x : A) l : length (set_nth i x l) = length l.
  Proof. revert i. induction l as [|y l IH]; intros [|i]; cbn; auto. Qed.
  Lemma set_nth_eq {A} i (x y : A) l : nth_error l i = Some y -> nth_error (set_nth i x l) i = Some x.
  Proof. revert i. induction l as [|z l IH]; intros [|i] H; cbn in *; try discriminate; auto. Qed.
  Lemma set_nth_neq {A} i j (x : A) l : i <> j -> nth_error (set_nth i x l) j = nth_error l j.
  Proof. revert i j. induction l as [|z l IH]; intros [|i] [|j] H; cbn; auto; congruence. Qed.

  (** Cells that are in the hands of someone keep name and size. *)
  Definition cells_kept (h h' : heap) : Prop :=
    (length h <= length h')%nat /\ forall a, (a < length h)%nat -> lname (cell h' a) = lname (cell h a) /\ lsize (cell h' a) = lsize (cell h a).
  (** The same object, but for the CID. *)
  Definition same_obj (o o' : obj) : Prop := match o, o' with
    | ORaw p d, ORaw p' d' => p = p' /\ d = d'
    | OProto p d ps _, OProto p' d' ps' _ => p = p' /\ d = d' /\ ps = ps'
    | _, _ => False end.
  Lemma same_obj_refl o : same_obj o o. Proof. destruct o; cbn; auto. Qed.
  Lemma same_obj_trans a b c : same_obj a b -> same_obj b c -> same_obj a c.
  Proof. destruct a, b, c; cbn; intuition congruence. Qed.
  Lemma same_obj_shows h o o' : same_obj o o' -> shows h o = shows h o'.
  Proof. destruct o, o'; cbn; try tauto; intros H; decompose [and] H; subst; reflexivity. Qed.
  Lemma same_obj_ptrs o o' : same_obj o o' -> obj_ptrs o = obj_ptrs o'.
  Proof. destruct o, o'; cbn; try tauto; intros H; decompose [and] H; subst; reflexivity. Qed.
  Lemma ask_same h o : same_obj o (ask_cid h o). Proof. destruct o; cbn; auto. Qed.
  Definition held_kept (hs hs' : list obj) : Prop := forall j o, nth_error hs j = Some o -> exists o', nth_error hs' j = Some o' /\ same_obj o o'.
  Lemma held_kept_app hs x : held_kept hs (hs ++ x).
  Proof. intros j o H. exists o. split; [|apply same_obj_refl]. rewrite nth_error_app1; [exact H|]. apply nth_error_Some. congruence. Qed.
  Lemma held_kept_ask h hs i o : nth_error hs i = Some o -> held_kept hs (set_nth i (ask_cid h o) hs).
  Proof.
    intros Hi j x H. destruct (Nat.eq_dec i j) as [->|Hn].
    - rewrite Hi in H. injection H as <-. eexists. split; [eapply set_nth_eq; exact Hi|apply ask_same].
    - exists x. split; [now rewrite set_nth_neq|apply same_obj_refl].
  Qed.

Section Steps.
  Variable split : bytes -> list bytes.
  Variable wbsize : Z.

  Lemma hstep_ok st c r st' : st_ok st -> hstep split wbsize st c r st' ->
    st_ok st' /\ cells_kept (h_heap st) (h_heap st') /\ held_kept (h_held st) (h_held st').
  Proof.
    intros [S1 S2] X. destruct X as [w h ms hs k n Hk|w h ms hs j o Hj|w h ms hs j o Hj|w h ms hs i op m ps q m' w' h' ps' Hi X]; cbn [h_heap h_mods h_held] in *.
    - assert (L : (length h <= length (h ++ node_links n))%nat) by (rewrite app_length; lia). split; [split|split].
      + eapply Forall_impl; [|exact S1]. intros x [A B]. split; [now apply (ptrs_grow h)|exact B].
      + cbn [h_heap h_held]. apply Forall_app. split; [eapply Forall_impl; [|exact S2]; intros o A; now apply (ptrs_grow h)|]. constructor; [|constructor].
        destruct n as [p d|p d ls]; cbn [decoded obj_ptrs node_links]; [split; constructor|apply ptrs_new].
      + split; [exact L|]. intros a Ha. rewrite cell_app by assumption. auto.
      + apply held_kept_app.
    - split; [split; [exact S1|]|split].
      + cbn [h_heap h_held]. apply set_nth_forall; [exact S2|]. rewrite <- (same_obj_ptrs _ _ (ask_same h o)). rewrite Forall_forall in S2. apply S2. eapply nth_error_In; exact Hj.
      + split; [cbn; lia|auto].
      + cbn [h_held]. now apply held_kept_ask.
    - assert (Ho : ptrs_ok h (obj_ptrs o)) by (rewrite Forall_forall in S2; apply S2; eapply nth_error_In; exact Hj). split; [split|split].
      + cbn [h_heap h_mods]. apply Forall_app. split; [exact S1|]. constructor; [|constructor]. split; [exact Ho|]. cbn [fst snd NewDagModifier m_node]. destruct o; cbn; auto.
      + cbn [h_heap h_held]. apply set_nth_forall; [exact S2|]. rewrite <- (same_obj_ptrs _ _ (ask_same h o)). exact Ho.
      + split; [cbn; lia|auto].
      + cbn [h_held]. now apply held_kept_ask.
    - assert (Hm : mod_ok h (m, ps)) by (rewrite Forall_forall in S1; apply S1; eapply nth_error_In; exact Hi).
      destruct (proj1 (f_hop split wbsize op) _ (refresh_ok h ps m w Hm) _ _ X) as (E & O & F1 & F2 & F3 & F4).
      split; [split|split].
      + cbn [h_heap h_mods]. apply set_nth_forall; [|eapply hok_mod; exact O]. eapply Forall_impl; [|exact S1]. intros x [A B]. split; [now apply (ptrs_grow h)|exact B].
      + cbn [h_heap h_held]. apply Forall_app. split; [eapply Forall_impl; [|exact S2]; intros o A; now apply (ptrs_grow h)|].
        unfold handed. destruct q as [[z| |b e|n]|e| |]; try constructor; [|constructor]. destruct n; cbn; [split; constructor|]. apply O.
      + split; [exact F1|exact F2].
      + cbn [h_held]. apply held_kept_app.
  Qed.
  Lemma hrun_ok st cs rs st' : st_ok st -> hrun split wbsize st cs rs st' ->
    st_ok st' /\ cells_kept (h_heap st) (h_heap st') /\ held_kept (h_held st) (h_held st').
  Proof.
    intros H X. revert H. induction X as [st|st c r st1 cs rs st2 X1 X2 IH]; intros H.
    - split; [exact H|]. split; [split; [lia|auto]|]. intros j o Hj. exists o. split; [exact Hj|apply same_obj_refl].
    - destruct (hstep_ok _ _ _ _ H X1) as (H1 & [L1 C1] & K1). destruct (IH H1) as (H2 & [L2 C2] & K2). split; [exact H2|]. split; [split; [lia|]|].
      + intros a Ha. destruct (C1 a Ha), (C2 a ltac:(lia)). split; congruence.
      + intros j o Hj. destruct (K1 j o Hj) as (o1 & A1 & B1). destruct (K2 j o1 A1) as (o2 & A2 & B2). exists o2. split; [exact A2|]. eapply same_obj_trans; eassumption.
  Qed.
  Lemma start_ok w : st_ok (hstart w). Proof. split; constructor. Qed.
End Steps.
