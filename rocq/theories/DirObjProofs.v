(** The object-level directories behave as the directories of Directory.v, and change no
    object but their own. *)
From Verif Require Import Base Pb FSNode Dag Builder HashBits HashProofs Bitfield Hamt HamtExec Walk Directory DirObj SpecDirObj.

Definition owns (d : odir) (x : nat) : Prop := match d with OBasic p _ => x = p | OHamt _ => False end.
(** Only the cells of [P] change, ProtoNodes stay ProtoNodes. *)
Definition frame (P : nat -> Prop) (hp hp' : heap) : Prop :=
  (length hp <= length hp')%nat /\ (forall x, (x < length hp)%nat -> ~ P x -> nth_error hp' x = nth_error hp x) /\
  (forall x q d ls, nth_error hp x = Some (NProto q d ls) -> exists q' d' ls', nth_error hp' x = Some (NProto q' d' ls')).

Lemma frame_refl P hp : frame P hp hp.
Proof. repeat split; eauto. Qed.
Lemma frame_trans (P : nat -> Prop) hp hp1 hp2 : frame P hp hp1 -> frame P hp1 hp2 -> frame P hp hp2.
Proof.
  intros (A1 & A2 & A3) (B1 & B2 & B3). split; [lia|]. split.
  - intros x Hx Hp. rewrite B2 by (assumption || lia). now apply A2.
  - intros x q d ls E. destruct (A3 _ _ _ _ E) as (q1 & d1 & l1 & E1). eauto.
Qed.
Lemma frame_weak (P Q : nat -> Prop) hp hp' : (forall x, (x < length hp)%nat -> P x -> Q x) -> frame P hp hp' -> frame Q hp hp'.
Proof. intros H (A1 & A2 & A3). split; [assumption|]. split; [|assumption]. intros x Hx Hq. apply A2; [assumption|]. intros Hp. apply Hq. now apply H. Qed.
Lemma frame_new P hp n : frame P hp (hp ++ [n]).
Proof.
  split; [rewrite app_length; lia|]. split.
  - intros x Hx _. now apply nth_error_app1.
  - intros x q d ls E. exists q, d, ls. rewrite nth_error_app1; [assumption|]. apply nth_error_Some. congruence.
Qed.
Lemma frame_set p q d ls q1 d1 ls1 hp : nth_error hp p = Some (NProto q d ls) -> frame (eq p) hp (set_nth p (NProto q1 d1 ls1) hp).
Proof.
  intros E. split; [rewrite set_nth_length; lia|]. split.
  - intros x Hx Hn. rewrite nth_error_set_nth. destruct (Nat.eqb_spec p x); [contradiction|reflexivity].
  - intros x q2 d2 l2 E2. rewrite nth_error_set_nth. destruct (Nat.eqb_spec p x) as [<-|]; [rewrite E|]; eauto.
Qed.
Lemma frame_links p ls hp : frame (eq p) hp (assign_links p ls hp).
Proof. unfold assign_links. destruct (nth_error hp p) as [[q d|q d l]|] eqn:E; try apply frame_refl. eapply frame_set; exact E. Qed.
Lemma frame_prefix p q hp : frame (eq p) hp (assign_prefix p q hp).
Proof. unfold assign_prefix. destruct (nth_error hp p) as [[q1 d|q1 d l]|] eqn:E; try apply frame_refl. eapply frame_set; exact E. Qed.
Lemma set_nth_id {A} (x : A) l : forall p, nth_error l p = Some x -> set_nth p x l = l.
Proof. induction l as [|y l IH]; intros [|p] E; cbn in *; try discriminate; [congruence|]. f_equal. now apply IH. Qed.
Lemma encode_raw p hp q d : nth_error hp p = Some (NRaw q d) -> encode p hp = hp.
Proof. intros E. unfold encode. rewrite E. cbn [seal]. now apply set_nth_id. Qed.
Lemma frame_encode p hp : frame (eq p) hp (encode p hp).
Proof.
  destruct (nth_error hp p) as [[q d|q d l]|] eqn:E.
  - rewrite (encode_raw _ _ _ _ E). apply frame_refl.
  - unfold encode. rewrite E. cbn [seal]. eapply frame_set; exact E.
  - unfold encode. rewrite E. apply frame_refl.
Qed.

Lemma bview_set p q d ls est hp q1 d1 l1 : nth_error hp p = Some (NProto q d ls) -> bview (set_nth p (NProto q1 d1 l1) hp) p est = Some (mkBasic q1 d1 l1 est).
Proof. intros E. unfold bview. rewrite nth_error_set_nth, Nat.eqb_refl, E. reflexivity. Qed.
Lemma bview_at hp p est b : bview hp p est = Some b -> nth_error hp p = Some (NProto (b_prefix b) (b_data b) (b_links b)) /\ b_est b = est.
Proof. unfold bview. destruct (nth_error hp p) as [[q d|q d l]|]; try discriminate. intros E. injection E as <-. auto. Qed.
Lemma bview_frame (P : nat -> Prop) hp hp' p est b : frame P hp hp' -> ~ P p -> bview hp p est = Some b -> bview hp' p est = Some b.
Proof.
  intros (A1 & A2 & A3) Hp E. pose proof (bview_at _ _ _ _ E) as [E1 _]. unfold bview in *. rewrite A2; [assumption| |assumption]. apply nth_error_Some. congruence.
Qed.

(** Operations of a BasicDirectory in place do what they do on values. *)
Definition sim (m : M basic unit) (o : nat -> Z -> heap -> res unit * (Z * heap)) : Prop := forall p est hp b, bview hp p est = Some b ->
  exists est' hp', o p est hp = (fst (m b), (est', hp')) /\ bview hp' p est' = Some (snd (m b)) /\ frame (eq p) hp hp'.

Lemma sim_remove name : sim (bRemoveChild name) (oRemoveChild name).
Proof.
  intros p est hp b E. destruct (bview_at _ _ _ _ E) as [E1 E2]. unfold oRemoveChild, bRemoveChild, links_at. rewrite E1. destruct b as [q d ls z]. cbn [b_prefix b_data b_links b_est] in *. subst z.
  destruct (GetNodeLink name ls) as [l|]; cbn [fst snd].
  - exists (if est - linkSize (lname l) (lto l) <? 0 then computeEstimatedSize ls else est - linkSize (lname l) (lto l)), (assign_links p (RemoveNodeLink name ls) hp). split; [reflexivity|]. split; [|apply frame_links].
    unfold assign_links. rewrite E1. erewrite bview_set by exact E1. reflexivity.
  - exists est, hp. split; [reflexivity|]. split; [exact E|apply frame_refl].
Qed.
Lemma remove_cases name b : exists b1, bRemoveChild name b = (Ok tt, b1) \/ bRemoveChild name b = (Err ENotExist, b1).
Proof. unfold bRemoveChild. destruct (GetNodeLink name (b_links b)); eauto. Qed.
Lemma sim_addlink name l : sim (addLinkChild name l) (oAddLinkChild name l).
Proof.
  intros p est hp b E. destruct (sim_remove name p est hp b E) as (e1 & h1 & R & V & F). unfold oAddLinkChild, addLinkChild. rewrite R.
  destruct (bview_at _ _ _ _ V) as [E1 E2].
  assert (G : exists est' hp', (Ok tt, (e1 + linkSize name (lto l), assign_links p (AddRawLink name l (b_links (snd (bRemoveChild name b)))) h1)) = (Ok tt, (est', hp')) /\
     bview hp' p est' = Some (addToEstimatedSize name (lto l) (b_set_links (AddRawLink name l (b_links (snd (bRemoveChild name b)))) (snd (bRemoveChild name b)))) /\ frame (eq p) hp hp').
  { eexists _, _. split; [reflexivity|]. split.
    - unfold assign_links. rewrite E1. erewrite bview_set by exact E1. unfold addToEstimatedSize, b_set_links. cbn. now rewrite E2.
    - eapply frame_trans; [exact F|apply frame_links]. }
  unfold links_at. rewrite E1. destruct (remove_cases name b) as [b1 [C|C]]; rewrite C in *; cbn [fst snd] in *; exact G.
Qed.
Lemma sim_add name n : sim (bAddChild name n) (oAddChild name n).
Proof. apply sim_addlink. Qed.

Lemma addLinks_cons l r b : snd (addLinks (l :: r) b) = snd (addLinks r (snd (addLinkChild (lname l) l b))).
Proof.
  cbn [addLinks]. unfold bind. unfold addLinkChild. destruct (remove_cases (lname l) b) as [b1 [C|C]]; rewrite C; reflexivity.
Qed.
Lemma sim_addlinks ls : forall p est hp b, bview hp p est = Some b ->
  exists est' hp', oAddLinks ls p est hp = (est', hp') /\ bview hp' p est' = Some (snd (addLinks ls b)) /\ frame (eq p) hp hp'.
Proof.
  induction ls as [|l ls IH]; intros p est hp b E.
  - exists est, hp. split; [reflexivity|]. split; [exact E|apply frame_refl].
  - destruct (sim_addlink (lname l) l p est hp b E) as (e1 & h1 & R & V & F). destruct (IH _ _ _ _ V) as (e2 & h2 & R2 & V2 & F2). exists e2, h2.
    split; [cbn [oAddLinks]; rewrite R; exact R2|]. split; [now rewrite addLinks_cons|]. eapply frame_trans; eassumption.
Qed.

(** The new node of switchToBasic is a new cell, all others stay. *)
Lemma new_cell hp q d ls q1 est : let hp1 := assign_prefix (length hp) q1 (hp ++ [NProto q d ls]) in
  bview hp1 (length hp) est = Some (mkBasic q1 d ls est) /\ frame (fun _ => False) hp hp1.
Proof.
  intros hp1. assert (E : nth_error (hp ++ [NProto q d ls]) (length hp) = Some (NProto q d ls)) by (rewrite nth_error_app2, Nat.sub_diag by lia; reflexivity).
  split.
  - unfold hp1, assign_prefix. rewrite E. eapply bview_set; exact E.
  - destruct (frame_prefix (length hp) q1 (hp ++ [NProto q d ls])) as (B1 & B2 & B3). destruct (frame_new (fun _ => False) hp (NProto q d ls)) as (A1 & A2 & A3). fold hp1 in B1, B2, B3. split; [lia|]. split.
    + intros x Hx _. rewrite B2; [apply A2; auto|lia|lia].
    + intros x qx dx lx Ex. destruct (A3 _ _ _ _ Ex) as (? & ? & ? & Ey). eauto.
Qed.
Lemma frame_new_then hp hp1 hp2 p : frame (fun _ => False) hp hp1 -> (length hp <= p)%nat -> frame (eq p) hp1 hp2 -> frame (fun _ => False) hp hp2.
Proof.
  intros (A1 & A2 & A3) Hp (B1 & B2 & B3). split; [lia|]. split.
  - intros x Hx _. rewrite B2 by lia. apply A2; auto.
  - intros x qx dx lx Ex. destruct (A3 _ _ _ _ Ex) as (? & ? & ? & Ey). eauto.
Qed.
Lemma sim_switch w h hp : exists r h1 hp', oSwitchToBasic w h hp = (r, h1, hp') /\ h1 = snd (switchToBasic w h) /\ frame (fun _ => False) hp hp' /\
  match r with
  | Ok (p, est) => exists b, fst (switchToBasic w h) = Ok b /\ (length hp <= p)%nat /\ bview hp' p est = Some b
  | Err e => fst (switchToBasic w h) = Err e
  | Panic => fst (switchToBasic w h) = Panic
  | Fuel => fst (switchToBasic w h) = Fuel
  end.
Proof.
  unfold oSwitchToBasic, switchToBasic. destruct newEmptyBasicDirectory as [b|e| |]; cbn [fst snd].
  - set (hp1 := assign_prefix _ _ _). destruct (new_cell hp (b_prefix b) (b_data b) (b_links b) (proto_prefix (s_builder (h_shard h))) (b_est b)) as [V F]. fold hp1 in V, F.
    change (Some (mkBasic (proto_prefix (s_builder (h_shard h))) (b_data b) (b_links b) (b_est b))) with (Some (bSetCidBuilder (s_builder (h_shard h)) b)) in V.
    destruct (ForEachLink w (switch_cb (bSetCidBuilder (s_builder (h_shard h)) b)) (h_shard h, [])) as [[u|e| |] [s acc]].
    + destruct (sim_addlinks (rev acc) _ _ _ _ V) as (e2 & h2 & R2 & V2 & F2). rewrite R2. eexists _, _, _. split; [reflexivity|]. split; [reflexivity|]. split; [eapply frame_new_then; [exact F|apply le_n|exact F2]|].
      eexists. split; [reflexivity|]. split; [apply le_n|exact V2].
    + eexists _, _, _. split; [reflexivity|]. split; [reflexivity|]. split; [exact F|reflexivity].
    + eexists _, _, _. split; [reflexivity|]. split; [reflexivity|]. split; [exact F|reflexivity].
    + eexists _, _, _. split; [reflexivity|]. split; [reflexivity|]. split; [exact F|reflexivity].
  - eexists _, _, _. split; [reflexivity|]. split; [reflexivity|]. split; [apply frame_refl|reflexivity].
  - eexists _, _, _. split; [reflexivity|]. split; [reflexivity|]. split; [apply frame_refl|reflexivity].
  - eexists _, _, _. split; [reflexivity|]. split; [reflexivity|]. split; [apply frame_refl|reflexivity].
Qed.

(** What shrinking does on values. *)
Definition vshrink (w : world) (m : M basic unit) (h : hamtdir) : res unit * directory :=
  match switchToBasic w h with
  | (Ok b, h1) => match m b with (Ok _, b1) => (Ok tt, DBasic b1) | (e, _) => (e, DHamt h1) end
  | (Err e, h1) => (Err e, DHamt h1)
  | (Panic, h1) => (Panic, DHamt h1)
  | (Fuel, h1) => (Fuel, DHamt h1)
  end.
Definition after (d : odir) (hp : heap) (v' : directory) (d' : odir) (hp' : heap) : Prop :=
  dview hp' d' = Some v' /\ frame (owns d) hp hp' /\ forall x, owns d' x -> owns d x \/ (length hp <= x)%nat.
Lemma sim_shrink w m o h h0 hp : sim m o -> exists d' hp', shrink w o h hp = (fst (vshrink w m h), (d', hp')) /\ after (OHamt h0) hp (snd (vshrink w m h)) d' hp'.
Proof.
  intros S. unfold shrink, vshrink. destruct (sim_switch w h hp) as (r & h1 & hp1 & E & Eh & F & R). rewrite E. destruct (switchToBasic w h) as [rv hv]. cbn [fst snd] in *. subst h1.
  assert (A : after (OHamt h0) hp (DHamt hv) (OHamt hv) hp1). { split; [reflexivity|]. split; [exact F|]. cbn. tauto. }
  destruct r as [[p est]|e| |].
  - destruct R as (b & -> & Hp & V). destruct (S _ _ _ _ V) as (e2 & h2 & R2 & V2 & F2). rewrite R2. destruct (m b) as [rm bm]. cbn [fst snd] in *.
    assert (F3 : frame (fun _ => False) hp h2) by (eapply frame_new_then; eassumption).
    destruct rm as [[]|e| |]; cbn [fst snd]; eexists _, _; (split; [reflexivity|]).
    + split; [cbn [dview]; rewrite V2; reflexivity|]. split; [exact F3|]. cbn. intros x ->. now right.
    + split; [reflexivity|]. split; [exact F3|]. cbn. tauto.
    + split; [reflexivity|]. split; [exact F3|]. cbn. tauto.
    + split; [reflexivity|]. split; [exact F3|]. cbn. tauto.
  - rewrite R. cbn [fst snd]. eauto.
  - rewrite R. cbn [fst snd]. eauto.
  - rewrite R. cbn [fst snd]. eauto.
Qed.

Section Dyn.
  Variables (hash : bytes -> bytes) (W : Z) (mayc : bool).

  (** The value-level operations with the shrinking written as a function. *)
  Lemma shrink_value w m h r st' : on_hamt w (det (switchToBasic w)) h (fun b h2 r st' => match m b with (Ok _, b1) => r = Ok tt /\ st' = (DBasic b1, w) | (e, _) => r = e /\ st' = (DHamt h2, w) end) r st' <->
    r = fst (vshrink w m h) /\ st' = (snd (vshrink w m h), w).
  Proof.
    unfold on_hamt, det, vshrink. destruct (switchToBasic w h) as [ra h1]. split.
    - intros (ra1 & h2 & E & K). injection E as <- <-. destruct ra as [b|e| |]; cbn [fst snd]; try exact K. destruct (m b) as [[[]|e| |] b1]; exact K.
    - intros K. exists ra, h1. split; [reflexivity|]. destruct ra as [b|e| |]; cbn [fst snd] in K; try exact K. destruct (m b) as [[[]|e| |] b1]; exact K.
  Qed.

  Lemma dyn_add T name n d hp w v r : dview hp d = Some v ->
    (forall d' hp' w', oDynAdd hash W mayc T name n d hp w r (d', hp', w') -> exists v', dAddChild hash W mayc T name n (v, w) r (v', w') /\ after d hp v' d' hp') /\
    (forall v' w', dAddChild hash W mayc T name n (v, w) r (v', w') -> exists d' hp', oDynAdd hash W mayc T name n d hp w r (d', hp', w') /\ after d hp v' d' hp').
  Proof.
    intros V. destruct d as [p est|h]; cbn [dview] in V.
    - destruct (bview hp p est) as [b|] eqn:E; [|discriminate]. injection V as <-. cbn [oDynAdd dAddChild]. rewrite E.
      assert (Same : after (OBasic p est) hp (DBasic b) (OBasic p est) hp) by (split; [cbn; now rewrite E|split; [apply frame_refl|auto]]).
      assert (New : forall h, after (OBasic p est) hp (DHamt h) (OHamt h) hp) by (intros h; split; [reflexivity|split; [apply frame_refl|cbn; tauto]]).
      destruct (needsToSwitchToHAMTDir T name (Some n) b).
      + destruct (switchToSharding hash W w b) as [h|e| |].
        * destruct (hAddChild hash name n (h, w)) as [[[]|e| |] [h1 w1]]; (split; [intros d' hp' w' [-> K]|intros v' w' [-> K]]; injection K; intros; subst; eauto 6).
        * split; [intros d' hp' w' [-> K]|intros v' w' [-> K]]; injection K; intros; subst; eauto 6.
        * split; [intros d' hp' w' [-> K]|intros v' w' [-> K]]; injection K; intros; subst; eauto 6.
        * split; [intros d' hp' w' [-> K]|intros v' w' [-> K]]; injection K; intros; subst; eauto 6.
      + destruct (sim_add name n _ _ _ _ E) as (e1 & h1 & R & V1 & F). rewrite R. destruct (bAddChild name n b) as [r1 b1]. cbn [fst snd] in *.
        assert (A : after (OBasic p est) hp (DBasic b1) (OBasic p e1) h1). { split; [cbn; now rewrite V1|]. split; [eapply frame_weak; [|exact F]; cbn; auto|auto]. }
        split; [intros d' hp' w' [-> K]|intros v' w' [-> K]]; injection K; intros; subst; eauto 6.
    - injection V as <-. cbn [oDynAdd dAddChild].
      assert (New : forall h0 h, after (OHamt h0) hp (DHamt h) (OHamt h) hp) by (intros h0 h1; split; [reflexivity|split; [apply frame_refl|cbn; tauto]]).
      split.
      + intros d' hp' w' (ra & h1 & N1 & K). destruct ra as [[]|e| |].
        * destruct (sim_shrink w (bAddChild name n) (oAddChild name n) h1 h hp (sim_add name n)) as (d1 & hp1 & Es & A). rewrite Es in K. destruct K as [-> K]. injection K; intros; subst. eexists. split; [|exact A].
          exists (Ok true), h1. split; [exact N1|]. apply shrink_value. auto.
        * destruct (hAddChild hash name n (h1, w)) as [r1 [h2 w1]] eqn:Eh. destruct K as [-> K]. injection K; intros; subst. eexists. split; [|apply New]. exists (Ok false), h1. split; [exact N1|]. rewrite Eh. auto.
        * destruct K as [-> K]. injection K; intros; subst. eexists. split; [|apply New]. exists (Err e), h1. auto.
        * destruct K as [-> K]. injection K; intros; subst. eexists. split; [|apply New]. exists Panic, h1. auto.
        * destruct K as [-> K]. injection K; intros; subst. eexists. split; [|apply New]. exists Fuel, h1. auto.
      + intros v' w' (ra & h1 & N1 & K). destruct ra as [[]|e| |].
        * apply shrink_value in K. destruct K as [-> K]. injection K; intros; subst. destruct (sim_shrink w (bAddChild name n) (oAddChild name n) h1 h hp (sim_add name n)) as (d1 & hp1 & Es & A). exists d1, hp1. split; [|exact A].
          exists (Ok true), h1. split; [exact N1|]. rewrite Es. auto.
        * destruct (hAddChild hash name n (h1, w)) as [r1 [h2 w1]] eqn:Eh. destruct K as [-> K]. injection K; intros; subst. eexists _, _. split; [|apply New]. exists (Ok false), h1. split; [exact N1|]. rewrite Eh. auto.
        * destruct K as [-> K]. injection K; intros; subst. eexists _, _. split; [|apply New]. exists (Err e), h1. auto.
        * destruct K as [-> K]. injection K; intros; subst. eexists _, _. split; [|apply New]. exists Panic, h1. auto.
        * destruct K as [-> K]. injection K; intros; subst. eexists _, _. split; [|apply New]. exists Fuel, h1. auto.
  Qed.

  Lemma dyn_remove T name d hp w v r : dview hp d = Some v ->
    (forall d' hp' w', oDynRemove hash mayc T name d hp w r (d', hp', w') -> exists v', dRemoveChild hash mayc T name (v, w) r (v', w') /\ after d hp v' d' hp') /\
    (forall v' w', dRemoveChild hash mayc T name (v, w) r (v', w') -> exists d' hp', oDynRemove hash mayc T name d hp w r (d', hp', w') /\ after d hp v' d' hp').
  Proof.
    intros V. destruct d as [p est|h]; cbn [dview] in V.
    - destruct (bview hp p est) as [b|] eqn:E; [|discriminate]. injection V as <-. cbn [oDynRemove dRemoveChild].
      destruct (sim_remove name _ _ _ _ E) as (e1 & h1 & R & V1 & F). rewrite R. destruct (bRemoveChild name b) as [r1 b1]. cbn [fst snd] in *.
      assert (A : after (OBasic p est) hp (DBasic b1) (OBasic p e1) h1). { split; [cbn; now rewrite V1|]. split; [eapply frame_weak; [|exact F]; cbn; auto|auto]. }
      split; [intros d' hp' w' [-> K]|intros v' w' [-> K]]; injection K; intros; subst; eauto 6.
    - injection V as <-. cbn [oDynRemove dRemoveChild].
      assert (New : forall h0 h, after (OHamt h0) hp (DHamt h) (OHamt h) hp) by (intros h0 h1; split; [reflexivity|split; [apply frame_refl|cbn; tauto]]).
      split.
      + intros d' hp' w' (ra & h1 & N1 & K). destruct ra as [[]|e| |].
        * destruct (sim_shrink w (bRemoveChild name) (oRemoveChild name) h1 h hp (sim_remove name)) as (d1 & hp1 & Es & A). rewrite Es in K. destruct K as [-> K]. injection K; intros; subst. eexists. split; [|exact A].
          exists (Ok true), h1. split; [exact N1|]. apply shrink_value. auto.
        * destruct (hRemoveChild hash w name h1) as [r1 h2] eqn:Eh. destruct K as [-> K]. injection K; intros; subst. eexists. split; [|apply New]. exists (Ok false), h1. split; [exact N1|]. rewrite Eh. auto.
        * destruct K as [-> K]. injection K; intros; subst. eexists. split; [|apply New]. exists (Err e), h1. auto.
        * destruct K as [-> K]. injection K; intros; subst. eexists. split; [|apply New]. exists Panic, h1. auto.
        * destruct K as [-> K]. injection K; intros; subst. eexists. split; [|apply New]. exists Fuel, h1. auto.
      + intros v' w' (ra & h1 & N1 & K). destruct ra as [[]|e| |].
        * apply shrink_value in K. destruct K as [-> K]. injection K; intros; subst. destruct (sim_shrink w (bRemoveChild name) (oRemoveChild name) h1 h hp (sim_remove name)) as (d1 & hp1 & Es & A). exists d1, hp1. split; [|exact A].
          exists (Ok true), h1. split; [exact N1|]. rewrite Es. auto.
        * destruct (hRemoveChild hash w name h1) as [r1 h2] eqn:Eh. destruct K as [-> K]. injection K; intros; subst. eexists _, _. split; [|apply New]. exists (Ok false), h1. split; [exact N1|]. rewrite Eh. auto.
        * destruct K as [-> K]. injection K; intros; subst. eexists _, _. split; [|apply New]. exists (Err e), h1. auto.
        * destruct K as [-> K]. injection K; intros; subst. eexists _, _. split; [|apply New]. exists Panic, h1. auto.
        * destruct K as [-> K]. injection K; intros; subst. eexists _, _. split; [|apply New]. exists Fuel, h1. auto.
  Qed.
End Dyn.
