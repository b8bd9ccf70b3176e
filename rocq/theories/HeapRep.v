(** Which objects a shard owns, and when they represent a shard of Hamt.v. *)
From Verif Require Import Base Pb FSNode Dag Builder HashBits Bitfield Hamt HeapHamt.

(** Perhaps a link object and the name it is for: whatever is done to the names of links, this one
    keeps that name at its end. The results hold for every choice. *)
Class Tag := { t_la : option laddr; t_key : bytes }.
Section Rep.
Context {T : Tag}.
(** A value: name up to the prefix, size and target. *)
Definition hval (h : heap) (key : bytes) (o : option laddr) (v : option link) (G : list laddr) : Prop :=
  match o, v with
  | None, None => G = []
  | Some la, Some l => G = [la] /\ exists l', nth_error (h_links h) la = Some l' /\ lsize l' = lsize l /\ lto l' = lto l /\ (exists p, lname l' = p ++ key) /\ (t_la = Some la -> key = t_key)
  | _, _ => False
  end.
Definition chead (c : scell) (s : shard) : Prop := c_size c = s_size s /\ c_builder c = s_builder s /\ c_bf c = s_bf s /\ c_key c = s_key s.
(** [F]: shards, [G]: links of values, [K]: links of children that are not loaded. *)
Inductive hrep (h : heap) : saddr -> shard -> list saddr -> list laddr -> list laddr -> Prop :=
| hrep_intro a c s F G0 G K : nth_error (h_shards h) a = Some c -> chead c s -> hval h (s_key s) (c_val c) (s_val s) G0 -> hreps h (c_slots c) (s_slots s) F G K -> hrep h a s (a :: F) (G0 ++ G) K
with hreps (h : heap) : list hslot -> list (slot shard) -> list saddr -> list laddr -> list laddr -> Prop :=
| hreps_nil : hreps h [] [] [] [] []
| hreps_link la l xs ss F G K : nth_error (h_links h) la = Some l -> hreps h xs ss F G K -> hreps h (HLink la :: xs) (SLink l :: ss) F G (la :: K)
| hreps_shard a s xs ss F1 G1 K1 F2 G2 K2 : hrep h a s F1 G1 K1 -> hreps h xs ss F2 G2 K2 -> hreps h (HShard a :: xs) (SShard s :: ss) (F1 ++ F2) (G1 ++ G2) (K1 ++ K2).
Scheme hrep_mut := Minimality for hrep Sort Prop with hreps_mut := Minimality for hreps Sort Prop.
Combined Scheme hrep_both from hrep_mut, hreps_mut.

(** What a call may change: the shards [F] and the names of the links [G]. *)
Record kept (h h' : heap) (F : list saddr) (G : list laddr) : Prop := {
  kp_s : forall x c, nth_error (h_shards h) x = Some c -> ~ In x F -> nth_error (h_shards h') x = Some c;
  kp_l : forall x l, nth_error (h_links h) x = Some l -> ~ In x G -> nth_error (h_links h') x = Some l;
  kp_t : forall x l, nth_error (h_links h) x = Some l -> exists l', nth_error (h_links h') x = Some l' /\ lsize l' = lsize l /\ lto l' = lto l;
  kp_k : forall la l, t_la = Some la -> nth_error (h_links h) la = Some l -> (exists p, lname l = p ++ t_key) -> exists l', nth_error (h_links h') la = Some l' /\ exists p, lname l' = p ++ t_key;
  kp_n : (length (h_shards h) <= length (h_shards h'))%nat;
  kp_m : (length (h_links h) <= length (h_links h'))%nat }.
(** New objects apart, everything in [A] is in [B]. *)
Definition sub (n : nat) (A B : list nat) : Prop := forall x, In x A -> In x B \/ (n <= x)%nat.
Record owns (h : heap) (a : saddr) (s : shard) (F : list saddr) (G K : list laddr) : Prop := {
  ow_rep : hrep h a s F G K; ow_F : NoDup F; ow_G : NoDup G; ow_K : forall x, In x G -> In x K -> False; ow_t : forall la, t_la = Some la -> (la < length (h_links h))%nat }.
(** The shard at [a] after a call: [s]; the links [X] are no longer part of it. *)
Definition moved (X : list laddr) (h h' : heap) (a : saddr) (s : shard) (F : list saddr) (G K : list laddr) : Prop :=
  exists F' G' K', owns h' a s F' G' K' /\ sub (length (h_shards h)) F' F /\ sub (length (h_links h)) G' G /\ sub (length (h_links h)) K' K /\ kept h h' F G /\ forall x, In x X -> ~ In x G' /\ ~ In x K'.

(** ** Lists *)
Lemma nth_lt {A} (l : list A) i x : nth_error l i = Some x -> (i < length l)%nat.
Proof. intros H. apply nth_error_Some. congruence. Qed.
Lemma set_nth_len {A} i (x : A) l : length (set_nth i x l) = length l.
Proof. revert i. induction l as [|y l IH]; intros [|i]; cbn; auto. Qed.
Lemma set_nth_same {A} i (x y : A) l : nth_error l i = Some y -> nth_error (set_nth i x l) i = Some x.
Proof. revert i. induction l as [|z l IH]; intros [|i]; cbn; intros; try discriminate; auto. Qed.
Lemma set_nth_other {A} i j (x : A) l : i <> j -> nth_error (set_nth i x l) j = nth_error l j.
Proof. revert i j. induction l as [|z l IH]; intros [|i] [|j] H; cbn; auto; congruence. Qed.
Lemma set_nth_mid {A} (x y : A) l1 l2 : set_nth (length l1) x (l1 ++ y :: l2) = l1 ++ x :: l2.
Proof. induction l1; cbn; congruence. Qed.
Lemma nodup_mid {A} (P B B' Q : list A) : NoDup (P ++ B ++ Q) -> NoDup B' -> (forall x, In x B' -> ~ In x P /\ ~ In x Q) -> NoDup (P ++ B' ++ Q).
Proof.
  intros H HB HX. assert (D : NoDup P /\ NoDup Q /\ forall x, In x P -> In x Q -> False).
  { clear - H. induction P as [|p P IH]; cbn [app] in *.
    { split; [constructor|]. split; [|intros x []]. induction B as [|b B IH]; cbn [app] in *; [assumption|]. inversion H; auto. }
    inversion H as [|? ? N1 N2]; subst. destruct (IH N2) as (I1 & I2 & I3). rewrite !in_app_iff in N1. split; [constructor; tauto|]. split; [assumption|]. intros x [->|]; [tauto|eauto]. }
  destruct D as (D1 & D2 & D3). clear H. induction P as [|p P IH]; cbn.
  - clear - HB HX D2. induction B' as [|b B IH]; cbn; [assumption|]. inversion HB; subst. constructor; [rewrite in_app_iff; intros [|]; [contradiction|]; apply (HX b); [now left|assumption]|]. apply IH; [assumption|]. intros x Hx. apply HX. now right.
  - inversion D1; subst. constructor.
    + rewrite !in_app_iff. intros [H|[H|H]]; [contradiction| |eapply D3; [now left|eassumption]]. destruct (HX p H) as [X _]. apply X. now left.
    + apply IH; [intros x Hx; destruct (HX x Hx); cbn in *; split; tauto|assumption|intros x Hx; apply D3; now right].
Qed.

(** ** Bounds and frames *)
Lemma hrep_bounds h : (forall a s F G K, hrep h a s F G K -> (forall x, In x F -> (x < length (h_shards h))%nat) /\ (forall x, In x G -> (x < length (h_links h))%nat) /\ (forall x, In x K -> (x < length (h_links h))%nat)) /\
  (forall xs ss F G K, hreps h xs ss F G K -> (forall x, In x F -> (x < length (h_shards h))%nat) /\ (forall x, In x G -> (x < length (h_links h))%nat) /\ (forall x, In x K -> (x < length (h_links h))%nat)).
Proof.
  apply hrep_both.
  - intros a c s F G0 G K Hc Hh Hv _ (A & B & C). apply nth_lt in Hc. split; [intros x [<-|]; auto|]. split; [|assumption]. intros x Hx. apply in_app_iff in Hx as [Hx|]; [|auto].
    unfold hval in Hv. destruct (c_val c), (s_val s); try contradiction; [|now subst]. destruct Hv as (-> & l' & E & _). destruct Hx as [<-|[]]. eapply nth_lt, E.
  - repeat split; intros x [].
  - intros la l xs ss F G K Hl _ (A & B & C). apply nth_lt in Hl. split; [assumption|]. split; [assumption|]. intros x [<-|]; auto.
  - intros a s xs ss F1 G1 K1 F2 G2 K2 _ (A & B & C) _ (A' & B' & C'). repeat split; intros x Hx; apply in_app_iff in Hx as [|]; auto.
Qed.
Lemma hval_frame h h' key o v G F G0 : hval h key o v G -> kept h h' F G0 -> (forall x, In x G -> ~ In x G0) -> hval h' key o v G.
Proof.
  unfold hval. destruct o as [la|], v as [l|]; auto. intros (-> & l' & E & R) Hk D. split; [reflexivity|]. exists l'. split; [|exact R]. apply (kp_l _ _ _ _ Hk); [exact E|]. apply D. now left.
Qed.
Lemma hrep_frame h h' F0 G0 : kept h h' F0 G0 ->
  (forall a s F G K, hrep h a s F G K -> (forall x, In x F -> ~ In x F0) -> (forall x, In x G -> ~ In x G0) -> (forall x, In x K -> ~ In x G0) -> hrep h' a s F G K) /\
  (forall xs ss F G K, hreps h xs ss F G K -> (forall x, In x F -> ~ In x F0) -> (forall x, In x G -> ~ In x G0) -> (forall x, In x K -> ~ In x G0) -> hreps h' xs ss F G K).
Proof.
  intros Hk. apply hrep_both.
  - intros a c s F Gv G K Hc Hh Hv _ IH DF DG DK. eapply hrep_intro; [apply (kp_s _ _ _ _ Hk); [exact Hc|apply DF; now left]|exact Hh| |].
    + eapply hval_frame; [exact Hv|exact Hk|]. intros x Hx. apply DG, in_or_app. now left.
    + apply IH; [intros x Hx; apply DF; now right|intros x Hx; apply DG, in_or_app; now right|exact DK].
  - intros _ _ _. constructor.
  - intros la l xs ss F G K Hl _ IH DF DG DK. constructor; [apply (kp_l _ _ _ _ Hk); [exact Hl|apply DK; now left]|]. apply IH; auto. intros x Hx. apply DK. now right.
  - intros a s xs ss F1 G1 K1 F2 G2 K2 _ IH1 _ IH2 DF DG DK. constructor.
    + apply IH1; intros x Hx; [apply DF|apply DG|apply DK]; apply in_or_app; now left.
    + apply IH2; intros x Hx; [apply DF|apply DG|apply DK]; apply in_or_app; now right.
Qed.

Lemma kept_refl h F G : kept h h F G.
Proof. constructor; auto; intros; eauto. Qed.
Lemma kept_weaken h h' F G F' G' : kept h h' F G -> incl F F' -> incl G G' -> kept h h' F' G'.
Proof. intros [A B C U D E] HF HG. constructor; auto. Qed.
Lemma kept_trans h h1 h2 F G F1 G1 : kept h h1 F G -> kept h1 h2 F1 G1 -> sub (length (h_shards h)) F1 F -> sub (length (h_links h)) G1 G -> kept h h2 F G.
Proof.
  intros [A B C U D E] [A1 B1 C1 U1 D1 E1] HF HG. constructor; [| | | |lia|lia].
  - intros x c Hx Hn. apply A1; [auto|]. intros Hi. destruct (HF x Hi) as [|L]; [contradiction|]. apply nth_lt in Hx. lia.
  - intros x l Hx Hn. apply B1; [auto|]. intros Hi. destruct (HG x Hi) as [|L]; [contradiction|]. apply nth_lt in Hx. lia.
  - intros x l Hx. destruct (C x l Hx) as (l1 & E1' & <- & <-). destruct (C1 x l1 E1') as (l2 & E2 & <- & <-). eauto.
  - intros la l Ht Hl Hp. destruct (U la l Ht Hl Hp) as (l1 & Hl1 & Hp1). eauto.
Qed.
Lemma sub_refl n A : sub n A A.
Proof. intros x. auto. Qed.
Lemma sub_trans n m A B C : sub m A B -> sub n B C -> (n <= m)%nat -> sub n A C.
Proof. intros H1 H2 L x Hx. destruct (H1 x Hx) as [Hb|Hb]; [auto|right; lia]. Qed.
Lemma sub_incl n A B : incl A B -> sub n A B.
Proof. intros H x Hx. auto. Qed.

Lemma owns_moved h a s F G K : owns h a s F G K -> moved [] h h a s F G K.
Proof. intros H. exists F, G, K. split; [exact H|]. repeat (split; [apply sub_refl|]). split; [apply kept_refl|]. intros x []. Qed.
Lemma moved_trans X h h1 h2 a s s' F G K F1 G1 K1 : kept h h1 F G -> sub (length (h_shards h)) F1 F -> sub (length (h_links h)) G1 G -> sub (length (h_links h)) K1 K -> moved X h1 h2 a s' F1 G1 K1 -> owns h1 a s F1 G1 K1 -> moved X h h2 a s' F G K.
Proof.
  intros Hk SF SG SK (F' & G' & K' & O & SF' & SG' & SK' & Hk' & HX) _. exists F', G', K'. destruct Hk as [A B C U D E] eqn:Ek. split; [exact O|].
  split; [eapply sub_trans; eauto|]. split; [eapply sub_trans; eauto|]. split; [eapply sub_trans; eauto|]. split; [eapply kept_trans; eauto|exact HX].
Qed.

(** ** Splitting the slots *)
Lemma hreps_app h x1 s1 F1 G1 K1 : hreps h x1 s1 F1 G1 K1 -> forall x2 s2 F2 G2 K2, hreps h x2 s2 F2 G2 K2 -> hreps h (x1 ++ x2) (s1 ++ s2) (F1 ++ F2) (G1 ++ G2) (K1 ++ K2).
Proof.
  revert s1 F1 G1 K1. induction x1 as [|x x1 IH]; intros s1 F1 G1 K1 H; inversion H; subst; intros; cbn [app]; [assumption|constructor; auto|]. rewrite <- !app_assoc. constructor; auto.
Qed.
Lemma hreps_len h xs ss F G K : hreps h xs ss F G K -> length xs = length ss.
Proof. revert ss F G K. induction xs; intros ss F G K H; inversion H; subst; cbn; eauto. Qed.
Lemma hreps_split h n : forall xs ss F G K, hreps h xs ss F G K -> exists F1 G1 K1 F2 G2 K2, F = F1 ++ F2 /\ G = G1 ++ G2 /\ K = K1 ++ K2 /\ hreps h (firstn n xs) (firstn n ss) F1 G1 K1 /\ hreps h (skipn n xs) (skipn n ss) F2 G2 K2.
Proof.
  induction n as [|n IH]; intros xs ss F G K H; [exists [], [], [], F, G, K; cbn [firstn skipn app]; repeat (split; [reflexivity|]); split; [constructor|assumption]|].
  inversion H; subst; cbn [firstn skipn].
  - exists [], [], [], [], [], []. repeat (split; [reflexivity|]). split; constructor.
  - destruct (IH _ _ _ _ _ H1) as (F1 & G1 & K1 & F2 & G2 & K2 & -> & -> & -> & A & B). exists F1, G1, (la :: K1), F2, G2, K2. repeat (split; [reflexivity|]). split; [constructor; assumption|assumption].
  - destruct (IH _ _ _ _ _ H1) as (F1' & G1' & K1' & F2' & G2' & K2' & -> & -> & -> & A & B). exists (F1 ++ F1'), (G1 ++ G1'), (K1 ++ K1'), F2', G2', K2'. rewrite !app_assoc. repeat (split; [reflexivity|]). split; [constructor; assumption|assumption].
Qed.
Lemma hreps_nth h i xs ss F G K y : hreps h xs ss F G K -> nth_error ss i = Some y -> exists x x1 x2 s1 s2 F1 G1 K1 Fc Gc Kc F2 G2 K2,
  xs = x1 ++ x :: x2 /\ ss = s1 ++ y :: s2 /\ length x1 = i /\ length s1 = i /\ F = F1 ++ Fc ++ F2 /\ G = G1 ++ Gc ++ G2 /\ K = K1 ++ Kc ++ K2 /\
  hreps h x1 s1 F1 G1 K1 /\ hreps h [x] [y] Fc Gc Kc /\ hreps h x2 s2 F2 G2 K2.
Proof.
  intros H E. assert (Hl := hreps_len _ _ _ _ _ _ H). destruct (nth_error_split _ _ E) as (s1 & s2 & -> & L). destruct (hreps_split h i _ _ _ _ _ H) as (F1 & G1 & K1 & F2 & G2 & K2 & -> & -> & -> & A & B).
  rewrite <- L in A, B. rewrite firstn_app, firstn_all, Nat.sub_diag, app_nil_r in A. rewrite skipn_app, skipn_all, Nat.sub_diag in B. cbn [skipn app firstn] in A, B.
  rewrite app_length in Hl. cbn in Hl. destruct (skipn (length s1) xs) as [|x x2] eqn:Ex; [inversion B|]. destruct (hreps_split h 1 _ _ _ _ _ B) as (F3 & G3 & K3 & F4 & G4 & K4 & -> & -> & -> & A' & B'). cbn [firstn skipn] in A', B'.
  exists x, (firstn (length s1) xs), x2, s1, s2, F1, G1, K1, F3, G3, K3, F4, G4, K4. split; [rewrite <- Ex; symmetry; apply firstn_skipn|]. split; [reflexivity|]. split; [rewrite firstn_length; lia|]. repeat (split; [first [exact L|reflexivity]|]). split; [exact A|]. split; [exact A'|exact B'].
Qed.
End Rep.
