(** The operations on objects do what those of Hamt.v do on values. *)
From Verif Require Import Base Pb FSNode Dag Builder HashBits Bitfield Hamt HeapHamt HeapRep.

Section Ops.
Context {TG : Tag}.
(** Two runs with related outcomes. *)
Definition sim {A B S T} (R : A -> B -> S -> T -> Prop) (E : S -> T -> Prop) (x : res A * S) (y : res B * T) : Prop :=
  match fst x, fst y with
  | Ok a, Ok b => R a b (snd x) (snd y)
  | Err e, Err e' => e = e' /\ E (snd x) (snd y)
  | Panic, Panic => True
  | Fuel, Fuel => True
  | _, _ => False
  end.
Lemma sim_bind {A B A' B' S T} (R : A -> B -> S -> T -> Prop) (R' : A' -> B' -> S -> T -> Prop) E m n (f : A -> M S A') (g : B -> M T B') s t :
  sim R E (m s) (n t) -> (forall a b s' t', R a b s' t' -> sim R' E (f a s') (g b t')) -> sim R' E (bind m f s) (bind n g t).
Proof.
  unfold sim, bind. intros H K. destruct (m s) as [[a|e| |] s'], (n t) as [[b|e'| |] t']; cbn [fst snd] in *; try contradiction; auto. now apply K.
Qed.
Lemma sim_mono {A B S T} (R R' : A -> B -> S -> T -> Prop) (E E' : S -> T -> Prop) x y : sim R E x y -> (forall a b s t, R a b s t -> R' a b s t) -> (forall s t, E s t -> E' s t) -> sim R' E' x y.
Proof. unfold sim. intros H K L. destruct (fst x), (fst y); try contradiction; auto. destruct H. auto. Qed.
(** Outcomes that do not depend on the state. *)
Lemma sim_lift {A B S T} (E : S -> T -> Prop) (r : res A) (f : A -> M S B) C (g : A -> M T C) (Q : B -> C -> S -> T -> Prop) s t :
  E s t -> (forall a, r = Ok a -> sim Q E (f a s) (g a t)) -> sim Q E (bind (lift r) f s) (bind (lift r) g t).
Proof. intros He H. unfold bind, lift. destruct r as [a|e| |]; [now apply H|cbn; auto|exact I|exact I]. Qed.

Lemma bind_lift {S A B} (r : res A) (k : A -> M S B) s : bind (lift r) k s = match r with Ok a => k a s | Err e => (Err e, s) | Panic => (Panic, s) | Fuel => (Fuel, s) end.
Proof. destruct r; reflexivity. Qed.

(** ** Elementary steps *)
Lemma get_cell_ok {A} h a c (k : scell -> M heap A) : nth_error (h_shards h) a = Some c -> bind (get_cell a) k h = k c h.
Proof. intros H. unfold bind, get_cell. now rewrite H. Qed.
Lemma get_link_ok {A} h a l (k : link -> M heap A) : nth_error (h_links h) a = Some l -> bind (get_link a) k h = k l h.
Proof. intros H. unfold bind, get_link. now rewrite H. Qed.
Lemma put_kept h a c : kept h (mkHeap (h_links h) (set_nth a c (h_shards h))) [a] [].
Proof.
  constructor; cbn [h_links h_shards]; [|auto|eauto|eauto|rewrite set_nth_len; lia|lia]. intros x c' Hx Hn. rewrite set_nth_other; [exact Hx|]. intros ->. apply Hn. now left.
Qed.
Lemma new_shard_kept h c : kept h (mkHeap (h_links h) (h_shards h ++ [c])) [] [].
Proof.
  constructor; cbn [h_links h_shards]; [|auto|eauto|eauto|rewrite app_length; lia|lia]. intros x c' Hx _. rewrite nth_error_app1; [exact Hx|eapply nth_lt, Hx].
Qed.
Lemma new_link_kept h l : kept h (mkHeap (h_links h ++ [l]) (h_shards h)) [] [].
Proof.
  assert (X : forall x l', nth_error (h_links h) x = Some l' -> nth_error (h_links h ++ [l]) x = Some l') by (intros x l' Hx; rewrite nth_error_app1; [exact Hx|eapply nth_lt, Hx]).
  constructor; cbn [h_links h_shards]; auto; [intros x l' Hx; eauto|intros l' Hl Hp; eauto|rewrite app_length; lia].
Qed.
Lemma new_at {A} (l : list A) x : nth_error (l ++ [x]) (length l) = Some x.
Proof. rewrite nth_error_app2, Nat.sub_diag by lia. reflexivity. Qed.
Lemma rename_ok h a l n : nth_error (h_links h) a = Some l -> (t_la = Some a -> exists p, n = p ++ t_key) -> exists h', rename a n h = (Ok tt, h') /\ h_shards h' = h_shards h /\ nth_error (h_links h') a = Some (mkLink n (lsize l) (lto l)) /\ kept h h' [] [a].
Proof.
  intros H Ht. unfold rename. rewrite (get_link_ok h a l _ H). eexists. split; [reflexivity|]. cbn [h_shards h_links]. split; [reflexivity|]. split; [eapply set_nth_same, H|].
  constructor; cbn [h_links h_shards]; auto.
  - intros x l' Hx Hn. rewrite set_nth_other; [exact Hx|]. intros ->. apply Hn. now left.
  - intros x l' Hx. destruct (Nat.eq_dec a x) as [->|N]; [|rewrite set_nth_other by assumption; eauto]. exists (mkLink n (lsize l) (lto l)). split; [eapply set_nth_same, H|]. rewrite H in Hx. injection Hx as <-. auto.
  - intros la l' Hta Hl Hp. destruct (Nat.eq_dec a la) as [<-|N]; [|rewrite set_nth_other by assumption; eauto]. exists (mkLink n (lsize l) (lto l)). split; [eapply set_nth_same, H|]. cbn [lname]. now apply Ht.
  - rewrite set_nth_len. lia.
Qed.
Lemma new_links_ok ls : forall h, exists las, new_links ls h = (Ok las, mkHeap (h_links h ++ ls) (h_shards h)) /\ (forall x, In x las -> (length (h_links h) <= x)%nat) /\
  kept h (mkHeap (h_links h ++ ls) (h_shards h)) [] [] /\ hreps (mkHeap (h_links h ++ ls) (h_shards h)) (map HLink las) (map SLink ls) [] [] las.
Proof.
  induction ls as [|l ls IH]; intros h.
  - exists []. destruct h as [ll hs]. cbn [h_links h_shards]. rewrite app_nil_r. split; [reflexivity|]. split; [intros x []|]. split; [apply kept_refl|constructor].
  - destruct (IH (mkHeap (h_links h ++ [l]) (h_shards h))) as (las & E & B & Hk & Hr). cbn [h_links h_shards] in *. rewrite <- !app_assoc in *. cbn [app] in *. exists (length (h_links h) :: las).
    split; [|split; [|split]].
    + cbn [new_links]. unfold bind, new_link. rewrite E. reflexivity.
    + intros x [<-|Hx]; [lia|]. apply B in Hx. rewrite app_length in Hx. cbn in Hx. lia.
    + eapply kept_trans; [apply (new_link_kept h l)|exact Hk|intros x []|intros x []].
    + cbn [map]. constructor; [cbn [h_links]; rewrite nth_error_app2, Nat.sub_diag by lia; reflexivity|exact Hr].
Qed.

(** ** The shard at an address *)
Lemma owns_cell h a s F G K : owns h a s F G K -> exists c F' G0 G', nth_error (h_shards h) a = Some c /\ chead c s /\ hval h (s_key s) (c_val c) (s_val s) G0 /\ hreps h (c_slots c) (s_slots s) F' G' K /\ F = a :: F' /\ G = G0 ++ G'.
Proof. intros [H _ _ _ _]. inversion H; subst. exists c, F0, G0, G1. auto 6. Qed.
Lemma owns_frame h h' F0 G0 a s F G K : owns h a s F G K -> kept h h' F0 G0 -> (forall x, In x F -> ~ In x F0) -> (forall x, In x G -> ~ In x G0) -> (forall x, In x K -> ~ In x G0) -> owns h' a s F G K.
Proof. intros [A B C D U] Hk DF DG DK. constructor; auto; [now apply (proj1 (hrep_frame h h' F0 G0 Hk))|]. pose proof (kp_m _ _ _ _ Hk). intros x Hx. specialize (U x Hx). lia. Qed.
Lemma owns_bounds h a s F G K : owns h a s F G K -> (forall x, In x F -> (x < length (h_shards h))%nat) /\ (forall x, In x G -> (x < length (h_links h))%nat) /\ (forall x, In x K -> (x < length (h_links h))%nat).
Proof. intros [A _ _ _ _]. exact (proj1 (hrep_bounds h) _ _ _ _ _ A). Qed.
(** New objects only. *)
Lemma moved_alloc h h' V a s F G K : owns h a s F G K -> kept h h' [] V -> (forall x, In x V -> ~ In x G /\ ~ In x K) -> moved [] h h' a s F (V ++ G) K.
Proof.
  intros H Hk HV. exists F, G, K. split; [eapply owns_frame; [exact H|exact Hk|intros x _ []|intros x A B; exact (proj1 (HV x B) A)|intros x A B; exact (proj2 (HV x B) A)]|]. split; [apply sub_refl|]. split; [apply sub_incl, incl_appr, incl_refl|]. split; [apply sub_refl|].
  split; [eapply kept_weaken; [exact Hk|intros x []|apply incl_appl, incl_refl]|]. intros x [].
Qed.

(** Looking at slot [i]. *)
Lemma focus h a s F G K i y : owns h a s F G K -> nth_error (s_slots s) i = Some y ->
  exists c x x1 x2 s1 s2 G0 F1 G1 K1 Fc Gc Kc F2 G2 K2, nth_error (h_shards h) a = Some c /\ chead c s /\ hval h (s_key s) (c_val c) (s_val s) G0 /\
  c_slots c = x1 ++ x :: x2 /\ s_slots s = s1 ++ y :: s2 /\ length x1 = i /\ length s1 = i /\ F = a :: F1 ++ Fc ++ F2 /\ G = G0 ++ G1 ++ Gc ++ G2 /\ K = K1 ++ Kc ++ K2 /\
  hreps h x1 s1 F1 G1 K1 /\ hreps h [x] [y] Fc Gc Kc /\ hreps h x2 s2 F2 G2 K2.
Proof.
  intros H E. destruct (owns_cell _ _ _ _ _ _ H) as (c & F' & G0 & G' & Hc & Hh & Hv & Hr & -> & ->). destruct (hreps_nth h i _ _ _ _ _ y Hr E) as (x & x1 & x2 & s1 & s2 & F1 & G1 & K1 & Fc & Gc & Kc & F2 & G2 & K2 & A & B & C & D & -> & -> & -> & U1 & U2 & U3).
  exists c, x, x1, x2, s1, s2, G0, F1, G1, K1, Fc, Gc, Kc, F2, G2, K2. rewrite ?app_assoc. repeat (split; [first [assumption|reflexivity]|]). exact U3.
Qed.
Lemma nodup_in_mid {A} (P B Q : list A) z : NoDup (P ++ B ++ Q) -> In z B -> ~ In z P /\ ~ In z Q.
Proof.
  intros H Hz. apply in_split in Hz as (u & v & ->). rewrite <- app_assoc in H. cbn [app] in H. rewrite app_assoc in H. apply NoDup_remove_2 in H. rewrite !in_app_iff in *. tauto.
Qed.
(** Putting other children there. *)
Lemma refocus_gen h h' X V a s s' c c' xm' x1 x2 s1 s2 ym' G0 F1 G1 K1 Fc Gc Kc F2 G2 K2 Fc' Gc' Kc' :
  owns h a s (a :: F1 ++ Fc ++ F2) (G0 ++ G1 ++ Gc ++ G2) (K1 ++ Kc ++ K2) -> chead c' s' -> hval h (s_key s) (c_val c) (s_val s) G0 -> c_val c' = c_val c -> s_key s' = s_key s -> s_val s' = s_val s ->
  c_slots c' = x1 ++ xm' ++ x2 -> s_slots s' = s1 ++ ym' ++ s2 -> hreps h x1 s1 F1 G1 K1 -> hreps h x2 s2 F2 G2 K2 ->
  (forall z, In z V -> ~ In z (G0 ++ G1 ++ Gc ++ G2) /\ ~ In z (K1 ++ Kc ++ K2)) ->
  kept h h' (a :: Fc) (V ++ Gc) -> nth_error (h_shards h') a = Some c' -> hreps h' xm' ym' Fc' Gc' Kc' ->
  sub (length (h_shards h)) Fc' Fc -> sub (length (h_links h)) Gc' (V ++ Gc) -> sub (length (h_links h)) Kc' Kc ->
  NoDup Fc' -> NoDup Gc' -> (forall z, In z Gc' -> In z Kc' -> False) -> (forall z, In z X -> (In z Gc \/ (length (h_links h) <= z)%nat) /\ ~ In z Gc' /\ ~ In z Kc') ->
  moved X h h' a s' (a :: F1 ++ Fc ++ F2) (V ++ G0 ++ G1 ++ Gc ++ G2) (K1 ++ Kc ++ K2).
Proof.
  intros O Hh Hv Ev Eky Evl Ex Es R1 R2 HV Hk Hc' Rn SF SG SK NF NG NK HX. destruct (owns_bounds _ _ _ _ _ _ O) as (BF & BG & BK). destruct O as [_ OF OG OK_ OT].
  assert (DG : forall z, In z Gc -> ~ In z (G0 ++ G1) /\ ~ In z G2).
  { clear - OG. rewrite app_assoc in OG. intros z Hz. exact (nodup_in_mid _ _ _ z OG Hz). }
  assert (DF : forall z, In z Fc -> ~ In z (a :: F1) /\ ~ In z F2).
  { clear - OF. rewrite app_comm_cons in OF. intros z Hz. exact (nodup_in_mid _ _ _ z OF Hz). }
  assert (Da : ~ In a F1 /\ ~ In a F2) by (clear - OF; inversion OF; subst; rewrite !in_app_iff in *; tauto).
  assert (QF : forall z, In z (F1 ++ F2) -> ~ In z (a :: Fc)).
  { intros z Hz [->|Hz']; [apply in_app_iff in Hz; tauto|]. destruct (DF z Hz') as [U1 U2]. apply in_app_iff in Hz as [|]; [apply U1; now right|contradiction]. }
  assert (QG : forall z, In z (G0 ++ G1 ++ G2) -> ~ In z (V ++ Gc)).
  { intros z Hz Hz'. apply in_app_iff in Hz' as [Hz'|Hz']; [destruct (HV z Hz'); rewrite !in_app_iff in *; tauto|]. destruct (DG z Hz'). rewrite !in_app_iff in *. tauto. }
  assert (QK : forall z, In z (K1 ++ K2) -> ~ In z (V ++ Gc)).
  { intros z Hz Hz'. apply in_app_iff in Hz' as [Hz'|Hz']; [destruct (HV z Hz'); rewrite !in_app_iff in *; tauto|]. apply (OK_ z); rewrite !in_app_iff in *; tauto. }
  pose proof (proj2 (hrep_frame h h' _ _ Hk)) as FR.
  assert (R1' : hreps h' x1 s1 F1 G1 K1) by (apply FR; [exact R1|intros z Hz; apply QF, in_or_app; now left|intros z Hz; apply QG; rewrite !in_app_iff; tauto|intros z Hz; apply QK, in_or_app; now left]).
  assert (R2' : hreps h' x2 s2 F2 G2 K2) by (apply FR; [exact R2|intros z Hz; apply QF, in_or_app; now right|intros z Hz; apply QG; rewrite !in_app_iff; tauto|intros z Hz; apply QK, in_or_app; now right]).
  exists (a :: F1 ++ Fc' ++ F2), (G0 ++ G1 ++ Gc' ++ G2), (K1 ++ Kc' ++ K2). split; [constructor|].
  - eapply hrep_intro; [exact Hc'|exact Hh| |].
    + rewrite Ev, Eky, Evl. eapply hval_frame; [exact Hv|exact Hk|]. intros z Hz. apply QG, in_or_app. now left.
    + rewrite Ex, Es. apply hreps_app; [exact R1'|]. now apply hreps_app.
  - rewrite app_comm_cons. eapply nodup_mid; [rewrite <- app_comm_cons; exact OF|exact NF|]. intros z Hz. destruct (SF z Hz) as [Hz'|L]; [now apply DF|]. split; intros Hi.
    + assert (z < length (h_shards h))%nat; [|lia]. apply BF. rewrite app_comm_cons. apply in_or_app. now left.
    + assert (z < length (h_shards h))%nat; [|lia]. apply BF. right. rewrite !in_app_iff. tauto.
  - rewrite app_assoc. eapply nodup_mid; [rewrite <- app_assoc; exact OG|exact NG|]. intros z Hz. destruct (SG z Hz) as [Hz'|L].
    + apply in_app_iff in Hz' as [Hz'|Hz']; [|now apply DG]. destruct (HV z Hz') as [U _]. rewrite !in_app_iff in *. tauto.
    + split; intros Hi; (assert (z < length (h_links h))%nat; [|lia]); apply BG; rewrite !in_app_iff in *; tauto.
  - intros z Hg Hkk. rewrite !in_app_iff in Hg. rewrite !in_app_iff in Hkk.
    assert (Og : In z (G0 ++ G1 ++ Gc ++ G2) \/ In z V \/ (length (h_links h) <= z)%nat /\ In z Gc').
    { rewrite !in_app_iff. destruct Hg as [|[|[Hg|]]]; try tauto. destruct (SG z Hg) as [U|U]; [apply in_app_iff in U; tauto|tauto]. }
    assert (Ok_ : In z (K1 ++ Kc ++ K2) \/ (length (h_links h) <= z)%nat /\ In z Kc').
    { rewrite !in_app_iff. destruct Hkk as [|[Hkk|]]; try tauto. destruct (SK z Hkk) as [U|U]; tauto. }
    destruct Og as [Og|[Og|[Og Og']]], Ok_ as [Ok_|[Ok_ Ok_']].
    + eapply OK_; eassumption.
    + apply BG in Og. lia.
    + destruct (HV z Og). contradiction.
    + destruct Hg as [Hg|[Hg|[Hg|Hg]]]; try (eapply NK; eassumption); assert (z < length (h_links h))%nat by (apply BG; rewrite !in_app_iff; tauto); lia.
    + apply BK in Ok_. lia.
    + eapply NK; eassumption.
  - pose proof (kp_m _ _ _ _ Hk). intros x Hx. match goal with U : forall la, t_la = Some la -> _ |- _ => specialize (U x Hx) end. lia.
  - split; [|split; [|split; [|split]]].
    + intros z [<-|Hz]; [left; now left|]. rewrite !in_app_iff in Hz. destruct Hz as [Hz|[Hz|Hz]]; [left; right; rewrite !in_app_iff; tauto| |left; right; rewrite !in_app_iff; tauto]. destruct (SF z Hz); [left; right; rewrite !in_app_iff; tauto|now right].
    + intros z Hz. rewrite !in_app_iff in *. destruct Hz as [Hz|[Hz|[Hz|Hz]]]; try tauto. destruct (SG z Hz) as [U|]; [rewrite in_app_iff in U; tauto|tauto].
    + intros z Hz. rewrite !in_app_iff in *. destruct Hz as [Hz|[Hz|Hz]]; try tauto. destruct (SK z Hz); tauto.
    + eapply kept_weaken; [exact Hk|intros z [<-|Hz]; [now left|right; rewrite !in_app_iff; tauto]|intros z Hz; rewrite !in_app_iff in *; tauto].
    + intros z Hz. destruct (HX z Hz) as ([U1|U1] & U2 & U3).
      * destruct (DG z U1) as [U4 U5]. split; [rewrite !in_app_iff in *; tauto|]. intros Hi. rewrite !in_app_iff in Hi. destruct Hi as [Hi|[Hi|Hi]]; [|contradiction|]; apply (OK_ z); rewrite !in_app_iff; tauto.
      * split; intros Hi; rewrite !in_app_iff in Hi.
        -- destruct Hi as [Hi|[Hi|[Hi|Hi]]]; try contradiction; (assert (z < length (h_links h))%nat; [|lia]); apply BG; rewrite !in_app_iff; tauto.
        -- destruct Hi as [Hi|[Hi|Hi]]; try contradiction; (assert (z < length (h_links h))%nat; [|lia]); apply BK; rewrite !in_app_iff; tauto.
Qed.

(** Putting another child there. *)
Lemma refocus h h' X V a s c x x' x1 x2 s1 s2 y y' G0 F1 G1 K1 Fc Gc Kc F2 G2 K2 Fc' Gc' Kc' :
  owns h a s (a :: F1 ++ Fc ++ F2) (G0 ++ G1 ++ Gc ++ G2) (K1 ++ Kc ++ K2) -> chead c s -> hval h (s_key s) (c_val c) (s_val s) G0 ->
  c_slots c = x1 ++ x :: x2 -> s_slots s = s1 ++ y :: s2 -> length s1 = length x1 -> hreps h x1 s1 F1 G1 K1 -> hreps h x2 s2 F2 G2 K2 ->
  (forall z, In z V -> ~ In z (G0 ++ G1 ++ Gc ++ G2) /\ ~ In z (K1 ++ Kc ++ K2)) ->
  kept h h' (a :: Fc) (V ++ Gc) -> nth_error (h_shards h') a = Some (c_set_slot x' (zlen x1) c) -> hreps h' [x'] [y'] Fc' Gc' Kc' ->
  sub (length (h_shards h)) Fc' Fc -> sub (length (h_links h)) Gc' (V ++ Gc) -> sub (length (h_links h)) Kc' Kc ->
  NoDup Fc' -> NoDup Gc' -> (forall z, In z Gc' -> In z Kc' -> False) -> (forall z, In z X -> (In z Gc \/ (length (h_links h) <= z)%nat) /\ ~ In z Gc' /\ ~ In z Kc') ->
  moved X h h' a (set_child y' (zlen x1) s) (a :: F1 ++ Fc ++ F2) (V ++ G0 ++ G1 ++ Gc ++ G2) (K1 ++ Kc ++ K2).
Proof.
  intros O Hh Hv Ex Es El R1 R2 HV Hk Hc' Rn SF SG SK NF NG NK HX.
  apply (refocus_gen h h' X V a s (set_child y' (zlen x1) s) c (c_set_slot x' (zlen x1) c) [x'] x1 x2 s1 s2 [y'] G0 F1 G1 K1 Fc Gc Kc F2 G2 K2 Fc' Gc' Kc'); auto.
  - unfold c_set_slot. cbn [c_set_slots c_slots]. unfold zlen. rewrite Nat2Z.id, Ex. apply set_nth_mid.
  - unfold set_child. cbn [set_slots s_slots]. unfold zlen. rewrite Nat2Z.id, Es, <- El. apply set_nth_mid.
Qed.
End Ops.
