(** ForEachLink on objects, with a function that leaves the objects alone. *)
From Verif Require Import Base Pb FSNode Dag Builder HashBits Bitfield Hamt DagProofs HeapHamt HeapRep HeapOps HeapGet HeapSwap HeapRun HeapRead.

Definition lat (h : heap) (la : laddr) (l : link) : Prop := nth_error (h_links h) la = Some l.
(** The same function for links as objects and for links as values. *)
Definition cbrel (hcb : hcallback) (cb : callback) : Prop := forall acc' la h acc l, Forall2 (lat h) acc' acc -> lat h la l ->
  hcb acc' la h = (match cb acc l with Some e => Err e | None => Ok tt end, h).

Definition weach (f : nat) (w : world) (cb : callback) := fix each (n : nat) (i : Z) (st : shard * list link) {struct n} : res unit * (shard * list link) :=
  match n with
  | O => (Ok tt, st)
  | S m =>
      let (s, acc) := st in
      match get_child w i s with
      | (Ok c, s1) =>
          match (if isValueNode c then s_val c else None) with
          | Some v =>
              let lnk := mkLink (s_key c) (lsize v) (lto v) in
              let s2 := set_child (SShard (set_val (Some lnk) c)) i s1 in
              match cb acc lnk with
              | Some e => (Err e, (s2, lnk :: acc))
              | None => each m (i + 1) (s2, lnk :: acc)
              end
          | None =>
              match walkTrie f w cb (c, acc) with
              | (Ok _, (c', acc')) => each m (i + 1) (set_child (SShard c') i s1, acc')
              | (Err e, (c', acc')) => (Err e, (set_child (SShard c') i s1, acc'))
              | (Panic, (c', acc')) => (Panic, (set_child (SShard c') i s1, acc'))
              | (Fuel, (c', acc')) => (Fuel, (set_child (SShard c') i s1, acc'))
              end
          end
      | (Err e, s1) => (Err e, (s1, acc))
      | (Panic, s1) => (Panic, (s1, acc))
      | (Fuel, s1) => (Fuel, (s1, acc))
      end
  end.
Lemma walk_eq f w cb st : walkTrie (S f) w cb st = weach f w cb (length (s_slots (fst st))) 0 st.
Proof. reflexivity. Qed.
Definition heach (f : nat) (w : world) (cb : hcallback) (a : saddr) := fix each (n : nat) (i : Z) {struct n} : M (heap * list laddr) unit :=
  match n with
  | O => ret tt
  | S m =>
      do x <- on_heap (hget w a i) ;;
      do c <- on_heap (get_cell x) ;;
      do _ <- match (if c_isValue c then c_val c else None) with
              | Some v => hdeliver cb v (c_key c)
              | None => hwalkTrie f w cb x
              end ;;
      each m (i + 1)
  end.
Lemma hwalk_eq f w cb a : hwalkTrie (S f) w cb a = (do c0 <- on_heap (get_cell a) ;; heach f w cb a (length (c_slots c0)) 0).
Proof. reflexivity. Qed.

Lemma skipn_set {A} i n (x : A) l : (i < n)%nat -> skipn n (set_nth i x l) = skipn n l.
Proof. revert i l. induction n as [|n IH]; intros i l H; [lia|]. destruct l as [|y l]; [destruct i; reflexivity|]. destruct i as [|i]; [reflexivity|]. cbn. apply IH. lia. Qed.

(** Reading never changes a link. *)
Definition appends {A} (m : M heap A) : Prop := forall h, exists ls, h_links (snd (m h)) = h_links h ++ ls.
Lemma app_bind {A B} (m : M heap A) (k : A -> M heap B) : appends m -> (forall a, appends (k a)) -> appends (bind m k).
Proof.
  intros Hm Hk h. unfold bind. destruct (Hm h) as [l1 E1]. destruct (m h) as [[a|e| |] h1]; cbn [snd] in *; [|now exists l1|now exists l1|now exists l1]. destruct (Hk a h1) as [l2 E2]. exists (l1 ++ l2). now rewrite E2, E1, app_assoc.
Qed.
Lemma app_same {A} (m : M heap A) : (forall h, h_links (snd (m h)) = h_links h) -> appends m.
Proof. intros H h. exists []. now rewrite H, app_nil_r. Qed.
Lemma app_ret {A} (x : A) : appends (ret x). Proof. now apply app_same. Qed.
Lemma app_throw {A} e : appends (@throw heap A e). Proof. now apply app_same. Qed.
Lemma app_lift {A} (r : res A) : appends (lift r). Proof. apply app_same. intros h. destruct r; reflexivity. Qed.
Lemma app_cell x : appends (get_cell x). Proof. apply app_same. intros h. unfold get_cell. destruct (nth_error _ _); reflexivity. Qed.
Lemma app_link x : appends (get_link x). Proof. apply app_same. intros h. unfold get_link. destruct (nth_error _ _); reflexivity. Qed.
Lemma app_put x c : appends (put_cell x c). Proof. now apply app_same. Qed.
Lemma app_new c : appends (new_shard c). Proof. now apply app_same. Qed.
Lemma app_newl l : appends (new_link l). Proof. intros h. now exists [l]. Qed.
Lemma app_newls ls : appends (new_links ls).
Proof. induction ls as [|l ls IH]; [apply app_ret|]. cbn [new_links]. apply app_bind; [apply app_newl|]. intros a. apply app_bind; [exact IH|]. intros ar. apply app_ret. Qed.
Lemma app_dag p d las : appends (hNewHamtFromDag p d las).
Proof.
  unfold hNewHamtFromDag. apply app_bind; [apply app_lift|]. intros fsn. destruct (negb _); [apply app_throw|]. destruct (negb _); [apply app_throw|]. apply app_bind; [apply app_lift|]. intros ds. apply app_bind; [apply app_lift|]. intros bf. apply app_new.
Qed.
Lemma hget_app w a i : appends (hget w a i).
Proof.
  unfold hget. apply app_bind; [apply app_cell|]. intros c. apply app_bind; [apply app_lift|]. intros _. destruct (nth_error _ _) as [[la|x]|]; [|apply app_ret|apply app_lift]. apply app_bind; [|intros x; apply app_bind; [apply app_put|intros _; apply app_ret]].
  unfold hloadChild. apply app_bind; [apply app_link|]. intros l. apply app_bind; [apply app_lift|]. intros [|].
  - unfold hmakeShardValue. apply app_bind; [apply app_link|]. intros l'. apply app_bind; [apply app_lift|]. intros v. destruct (_ <? _)%nat; [apply app_lift|]. apply app_bind; [apply app_newl|]. intros la2. apply app_new.
  - apply app_bind; [apply app_lift|]. intros [p d|p d ls]; [apply app_throw|]. apply app_bind; [apply app_newls|]. intros las. apply app_dag.
Qed.
Lemma hgetValue_app fuel w : forall hv key a, appends (hgetValue fuel w hv key a).
Proof.
  induction fuel as [|f IH]; intros hv key a; [apply app_lift|]. cbn [hgetValue]. apply app_bind; [apply app_cell|]. intros ds. apply app_bind; [apply app_lift|]. intros [idx hv1]. apply app_bind; [apply app_lift|]. intros [|]; [|apply app_throw].
  apply app_bind; [apply app_lift|]. intros i. apply app_bind; [apply hget_app|]. intros ch. apply app_bind; [apply app_cell|]. intros cc. destruct (c_isValue cc); [|apply IH]. destruct (bytes_eqb _ _); [apply app_ret|apply app_throw].
Qed.

Section Walk.
Context {TG : Tag}.
(** Reading one child: the later ones stay, a child that was not there is new. *)
Lemma hget_more w h a s F G K i child s' x h1 : owns h a s F G K -> get_child w i s = (Ok child, s') -> hget w a i h = (Ok x, h1) ->
  kept h h1 [a] [] /\ (forall n, (Z.to_nat i < n)%nat -> skipn n (s_slots s') = skipn n (s_slots s)) /\
  (exists c c', nth_error (h_shards h) a = Some c /\ nth_error (h_shards h1) a = Some c' /\ (forall n, (Z.to_nat i < n)%nat -> skipn n (c_slots c') = skipn n (c_slots c))) /\
  length (s_slots s') = length (s_slots s) /\
  ((h1 = h /\ s' = s) \/ forall ch Fc Gc Kc, hrep h1 x ch Fc Gc Kc -> forall z, In z Gc -> (length (h_links h) <= z)%nat).
Proof.
  intros O. destruct (owns_cell _ _ _ _ _ _ O) as (c & F' & G0 & G' & Hc & Hh & Hv & Hr & EF & EG). unfold hget. rewrite (get_cell_ok h a c _ Hc). unfold get_child.
  assert (Ec : c_check c i = check s i) by (unfold c_check, check, zlen; now rewrite (hreps_len _ _ _ _ _ _ Hr)). rewrite Ec. rewrite bind_lift. destruct (check s i) as [[]|e| |] eqn:Ek; try discriminate.
  assert (Hi : 0 <= i < zlen (s_slots s)) by (unfold check in Ek; destruct ((zlen (s_slots s) <=? i) || (i <? 0)) eqn:E; [discriminate|]; apply orb_false_iff in E; lia).
  destruct (nth_error (s_slots s) (Z.to_nat i)) as [y|] eqn:En; [|discriminate].
  destruct (focus _ _ _ _ _ _ _ _ O En) as (c' & x0 & x1 & x2 & s1 & s2 & G0' & F1 & G1 & K1 & Fc & Gc & Kc & F2 & G2 & K2 & Hc' & Hh' & Hv' & Ex & Es & L1 & L2 & EF' & EG' & EK' & R1 & Rc & R2). rewrite Hc in Hc'. injection Hc' as <-.
  assert (Enx : nth_error (c_slots c) (Z.to_nat i) = Some x0) by (rewrite Ex, nth_error_app2, <- L1, Nat.sub_diag by lia; reflexivity). rewrite Enx.
  destruct y as [l|ch].
  - assert (Hla : exists la, x0 = HLink la /\ nth_error (h_links h) la = Some l) by (inversion Rc; subst; eauto). destruct Hla as (la & -> & Hla). pose proof (hload_sim w h c s la l (ow_t _ _ _ _ _ _ O) Hh Hla) as D. intros E1 E2. destruct (loadChild w s l) as [ch|e| |]; try discriminate. injection E1 as <- <-.
    destruct D as (x' & h2 & Fc' & Gc' & Kc' & D1 & Dk & Dr & DF & DG & DK & BF & BG & BK). rewrite (bind_run _ _ _ _ _ D1) in E2. unfold bind, put_cell, ret in E2. injection E2 as <- <-.
    pose proof (put_kept h2 a (c_set_slot (HShard x') i c)) as Dp. set (h3 := mkHeap _ _) in *.
    assert (Ha : nth_error (h_shards h2) a = Some c) by (apply (kp_s _ _ _ _ Dk); [exact Hc|intros []]).
    split; [eapply kept_trans; [eapply kept_weaken; [exact Dk|intros z []|intros z []]|exact Dp|apply sub_refl|apply sub_refl]|]. split; [intros n Hn; unfold set_child; cbn [set_slots s_slots]; now apply skipn_set|].
    split; [|split; [unfold set_child; cbn [set_slots s_slots]; apply set_nth_len|]].
    + exists c, (c_set_slot (HShard x') i c). split; [exact Hc|]. split; [cbn [h3 h_shards]; eapply set_nth_same, Ha|]. intros n Hn. unfold c_set_slot. cbn [c_set_slots c_slots]. now apply skipn_set.
    + right. intros ch' Fd Gd Kd Hd z Hz. assert (Dr' : hrep h3 x' ch Fc' Gc' Kc').
      { apply (proj1 (hrep_frame _ _ _ _ Dp)); [exact Dr| |intros u _ []|intros u _ []]. intros u Hu [<-|[]]. apply BF in Hu. apply nth_lt in Hc. lia. }
      destruct (proj1 (hrep_det h3) _ _ _ _ _ Hd _ _ _ _ Dr') as (_ & -> & _). now apply BG.
  - assert (Hx : exists a0, x0 = HShard a0) by (inversion Rc; eauto). destruct Hx as [a0 ->]. intros E1 E2. injection E1 as <- <-. unfold ret in E2. injection E2 as <- <-. split; [apply kept_refl|]. split; [reflexivity|]. split; [exists c, c; auto|]. auto.
Qed.

(** The links delivered are not values of the children from [i] on. *)
Definition todo h a s (i : Z) (acc' : list laddr) : Prop := forall c Ft Gt Kt, nth_error (h_shards h) a = Some c -> hreps h (skipn (Z.to_nat i) (c_slots c)) (skipn (Z.to_nat i) (s_slots s)) Ft Gt Kt -> forall la, In la acc' -> ~ In la Gt.
Definition winv h0 a F0 G0 K0 (acc0 : list laddr) s (acc : list link) h (acc' : list laddr) : Prop :=
  exists F G K, owns h a s F G K /\ sub (length (h_shards h0)) F F0 /\ sub (length (h_links h0)) G G0 /\ sub (length (h_links h0)) K K0 /\ kept h0 h F0 G0 /\
    Forall2 (lat h) acc' acc /\ (forall la, In la acc' -> In la acc0 \/ In la G0 \/ (length (h_links h0) <= la)%nat).

Lemma lat_frame h h' F G acc acc' : Forall2 (lat h) acc' acc -> kept h h' F G -> (forall la, In la acc' -> ~ In la G) -> Forall2 (lat h') acc' acc.
Proof.
  intros H Hk. induction H as [|la l acc' acc Hl _ IH]; intros D; constructor; [apply (kp_l _ _ _ _ Hk); [exact Hl|apply D; now left]|apply IH; intros z Hz; apply D; now right].
Qed.
Lemma lat_lt h acc acc' : Forall2 (lat h) acc' acc -> forall la, In la acc' -> (la < length (h_links h))%nat.
Proof. intros H. induction H as [|la l acc' acc Hl _ IH]; intros z []; [subst; eapply nth_lt, Hl|auto]. Qed.

Lemma skipn_mid {A} (x1 x2 : list A) x i : length x1 = i -> skipn i (x1 ++ x :: x2) = x :: x2 /\ skipn (S i) (x1 ++ x :: x2) = x2.
Proof. intros <-. split; induction x1; cbn; auto. Qed.

Lemma todo_child h a s i ch child F G K c x1 x2 s1 s2 G0 F1 G1 K1 Fc Gc Kc F2 G2 K2 acc' : at_child h a s i ch child F G K c x1 x2 s1 s2 G0 F1 G1 K1 Fc Gc Kc F2 G2 K2 -> todo h a s i acc' -> forall la, In la acc' -> ~ In la (Gc ++ G2).
Proof.
  intros [Hc _ _ Ex Es L1 L2 _ _ _ _ Rc R2 _] T. apply (T c (Fc ++ F2) _ (Kc ++ K2) Hc). rewrite Ex, Es. rewrite (proj1 (skipn_mid x1 x2 (HShard ch) _ L1)), (proj1 (skipn_mid s1 s2 (SShard child) _ L2)). constructor; assumption.
Qed.
Lemma todo_get w h a s F G K i child s' x h1 F1 G1 K1 acc acc' : owns h a s F G K -> get_child w i s = (Ok child, s') -> hget w a i h = (Ok x, h1) -> owns h1 a s' F1 G1 K1 -> nth_error (s_slots s') (Z.to_nat i) = Some (SShard child) -> slot_at h1 a i (HShard x) ->
  Forall2 (lat h) acc' acc -> todo h a s i acc' -> todo h1 a s' i acc'.
Proof.
  intros O E1 E2 O1 En Sl L T. destruct (hget_more _ _ _ _ _ _ _ _ _ _ _ _ O E1 E2) as (Hk & Ts & (c & c' & Hc & Hc' & Tc) & _ & [[-> ->]|Fr]); [exact T|].
  destruct (at_child_of h1 a s' F1 G1 K1 i child x O1 En Sl) as (c1 & x1 & x2 & s1 & s2 & G01 & F11 & G11 & K11 & Fc & Gc & Kc & F12 & G12 & K12 & A).
  intros c1' Ft Gt Kt Hc1' Hr la Hla. destruct A as [Hc1 _ _ Ex Es L1 L2 _ _ _ _ Rc R2 Hi]. rewrite Hc1 in Hc1'. injection Hc1' as <-. rewrite Hc' in Hc1. injection Hc1 as <-.
  rewrite Ex, Es, (proj1 (skipn_mid x1 x2 (HShard x) _ L1)), (proj1 (skipn_mid s1 s2 (SShard child) _ L2)) in Hr.
  destruct (proj2 (hrep_det h1) _ _ _ _ _ Hr _ (Fc ++ F12) (Gc ++ G12) (Kc ++ K12) (hreps_shard _ _ _ _ _ _ _ _ _ _ _ Rc R2)) as (_ & -> & _). intros Hin. apply in_app_iff in Hin as [Hin|Hin].
  - pose proof (Fr _ _ _ _ Rc la Hin). pose proof (lat_lt _ _ _ L la Hla). lia.
  - destruct (owns_parts _ _ _ _ _ _ O) as (cx & Fs & G0 & Gs & Hcx & _ & _ & Hrs & EF & _ & Na & _). rewrite Hc in Hcx. injection Hcx as <-.
    destruct (hreps_split h (Z.to_nat i) _ _ _ _ _ Hrs) as (Fa & Ga & Ka & Fb & Gb & Kb & EFs & -> & -> & Ra & Rb). pose proof (T c Fb Gb Kb Hc Rb la Hla) as NT.
    destruct (hreps_split h 1 _ _ _ _ _ Rb) as (Fa' & Ga' & Ka' & Fb' & Gb' & Kb' & EFb & -> & -> & Ra' & Rb').
    assert (Sk : forall {A} (l : list A) n, skipn 1 (skipn n l) = skipn (S n) l). { intros A l n. revert l. induction n as [|n IHn]; intros [|y l]; try reflexivity. cbn [skipn] in *. apply IHn. }
    rewrite !Sk in Rb'. rewrite <- Tc, <- Ts in Rb' by lia. rewrite Ex, Es, (proj2 (skipn_mid x1 x2 (HShard x) _ L1)), (proj2 (skipn_mid s1 s2 (SShard child) _ L2)) in Rb'.
    assert (Rb1 : hreps h1 x2 s2 Fb' Gb' Kb').
    { apply (proj2 (hrep_frame _ _ _ _ Hk)); [exact Rb'| |intros z _ []|intros z _ []]. intros z Hz [<-|[]]. apply Na. rewrite EFs, EFb, !in_app_iff. tauto. }
    destruct (proj2 (hrep_det h1) _ _ _ _ _ R2 _ _ _ _ Rb1) as (_ & -> & _). apply NT. apply in_or_app. now right.
Qed.
(** The children after [i] are left alone by what is done to child [i]. *)
Lemma todo_next h h2 a s i ch child child' F G K c x1 x2 s1 s2 G0 F1 G1 K1 Fc Gc Kc F2 G2 K2 acc' : owns h a s F G K -> at_child h a s i ch child F G K c x1 x2 s1 s2 G0 F1 G1 K1 Fc Gc Kc F2 G2 K2 ->
  kept h h2 Fc Gc -> (forall la, In la acc' -> ~ In la G2) -> todo h2 a (set_child (SShard child') i s) (i + 1) acc'.
Proof.
  intros O A Hk D c2 Ft Gt Kt Hc2 Hr la Hla. destruct (child_owns _ _ _ _ _ _ _ _ _ _ _ _ _ _ _ _ _ _ _ _ _ _ _ _ O A) as (_ & _ & Na). destruct A as [Hc _ _ Ex Es L1 L2 -> -> -> _ Rc R2 Hi].
  assert (E : c2 = c). { pose proof (kp_s _ _ _ _ Hk a c Hc Na). congruence. } subst c2.
  replace (Z.to_nat (i + 1)) with (S (Z.to_nat i)) in Hr by lia. unfold set_child in Hr. cbn [set_slots s_slots] in Hr. rewrite skipn_set in Hr by lia. rewrite Ex, Es, (proj2 (skipn_mid x1 x2 (HShard ch) _ L1)), (proj2 (skipn_mid s1 s2 (SShard child) _ L2)) in Hr.
  destruct O as [_ OF OG OK_ _].
  assert (R2' : hreps h2 x2 s2 F2 G2 K2).
  { apply (proj2 (hrep_frame _ _ _ _ Hk)); [exact R2| | |].
    - intros z Hz Hz'. rewrite app_comm_cons in OF. exact (proj2 (nodup_in_mid _ _ _ z OF Hz') Hz).
    - intros z Hz Hz'. rewrite app_assoc in OG. exact (proj2 (nodup_in_mid _ _ _ z OG Hz') Hz).
    - intros z Hz Hz'. apply (OK_ z); rewrite !in_app_iff; tauto. }
  destruct (proj2 (hrep_det h2) _ _ _ _ _ Hr _ _ _ _ R2') as (_ & -> & _). now apply D.
Qed.
End Walk.

Definition walk_ok (f : nat) : Prop := forall (TG : Tag) w cb hcb, cbrel hcb cb -> forall h a s F G K acc acc', owns h a s F G K -> Forall2 (lat h) acc' acc -> (forall la, In la acc' -> ~ In la G) ->
  sim (fun _ _ st st' => winv h a F G K acc' (fst st) (snd st) (fst st') (snd st')) (fun st st' => winv h a F G K acc' (fst st) (snd st) (fst st') (snd st')) (walkTrie f w cb (s, acc)) (hwalkTrie f w hcb a (h, acc')).

Section Each.
  Context {TG : Tag}.
  Variable f : nat.
  Hypothesis IH : walk_ok f.
  Variables (w : world) (cb : callback) (hcb : hcallback).
  Hypothesis Hcb : cbrel hcb cb.
  Variables (h0 : heap) (a : saddr) (F0 : list saddr) (G0 K0 acc0 : list laddr).
  Let W (st : shard * list link) (st' : heap * list laddr) : Prop := winv h0 a F0 G0 K0 acc0 (fst st) (snd st) (fst st') (snd st').

  Lemma winv_step h a' s s' F G K acc acc' h' : owns h a' s F G K -> sub (length (h_shards h0)) F F0 -> sub (length (h_links h0)) G G0 -> sub (length (h_links h0)) K K0 -> kept h0 h F0 G0 -> moved [] h h' a' s' F G K ->
    Forall2 (lat h') acc' acc -> (forall la, In la acc' -> In la acc0 \/ In la G0 \/ (length (h_links h0) <= la)%nat) -> winv h0 a' F0 G0 K0 acc0 s' acc h' acc'.
  Proof.
    intros O SF SG SK Hk (F' & G' & K' & O' & SF' & SG' & SK' & Hk' & _) L Hin. pose proof (kp_n _ _ _ _ Hk). pose proof (kp_m _ _ _ _ Hk). exists F', G', K'. split; [exact O'|].
    split; [eapply sub_trans; eauto|]. split; [eapply sub_trans; eauto|]. split; [eapply sub_trans; eauto|]. split; [eapply kept_trans; eauto|]. auto.
  Qed.

  Lemma each_sim n : forall i h s acc acc', winv h0 a F0 G0 K0 acc0 s acc h acc' -> todo h a s i acc' -> 0 <= i -> sim (fun _ _ => W) W (weach f w cb n i (s, acc)) (heach f w hcb a n i (h, acc')).
  Proof.
    induction n as [|n IHn]; intros i h s acc acc' Wi T Hi; [exact Wi|]. cbn [weach heach].
    pose proof Wi as (F & G & K & O & SF & SG & SK & Hk & L & Hin).
    pose proof (sim_cases _ _ _ _ (hget_sim w h a s F G K i O)) as Sg.
    assert (Eh : forall {A} (m : M heap A) r h1, m h = (r, h1) -> on_heap m (h, acc') = (r, (h1, acc'))) by (intros A m r h1 E; unfold on_heap; cbn [fst snd]; now rewrite E).
    assert (Lg : forall r h1, hget w a i h = (r, h1) -> Forall2 (lat h1) acc' acc).
    { intros r h1 E. destruct (hget_app w a i h) as [ls El]. rewrite E in El. cbn [snd] in El. clear - L El. induction L as [|la l acc' acc Hl _ IHl]; constructor; [|exact IHl]. unfold lat in *. rewrite El, nth_error_app1; [exact Hl|eapply nth_lt, Hl]. }
    destruct (get_child w i s) as [[child|e| |] s1] eqn:Eg.
    2:{ destruct Sg as (h1 & E1 & M). rewrite (bind_run _ _ _ _ _ (Eh _ _ _ _ E1)). split; [reflexivity|]. unfold W. cbn [fst snd]. eapply winv_step; [exact O|exact SF|exact SG|exact SK|exact Hk|exact M|exact (Lg _ _ E1)|exact Hin]. }
    2:{ destruct Sg as (h1 & E1). rewrite (bind_run _ _ _ _ _ (Eh _ _ _ _ E1)). exact I. }
    2:{ destruct Sg as (h1 & E1). rewrite (bind_run _ _ _ _ _ (Eh _ _ _ _ E1)). exact I. }
    destruct Sg as (ch & h1 & E1 & M1 & En & Sl). rewrite (bind_run _ _ _ _ _ (Eh _ _ _ _ E1)). pose proof (Lg _ _ E1) as L1. pose proof M1 as (F1 & G1 & K1 & O1 & SF1 & SG1 & SK1 & Hk1 & _).
    assert (T1 : todo h1 a s1 i acc') by (eapply todo_get; [exact O|exact Eg|exact E1|exact O1|exact En|exact Sl|exact L|exact T]).
    destruct (at_child_of h1 a s1 F1 G1 K1 i child ch O1 En Sl) as (c1 & x1 & x2 & s1' & s2' & G01 & F11 & G11 & K11 & Fc & Gc & Kc & F12 & G12 & K12 & A).
    destruct (child_owns _ _ _ _ _ _ _ _ _ _ _ _ _ _ _ _ _ _ _ _ _ _ _ _ O1 A) as (Oc & _ & _). destruct (owns_parts _ _ _ _ _ _ Oc) as (cc & Fv & Gv & Gv' & Hcc & Hhc & Hvc & Hrc & EFc & EGc & Nch & _ & _ & DGv & Eval).
    pose proof (todo_child _ _ _ _ _ _ _ _ _ _ _ _ _ _ _ _ _ _ _ _ _ _ _ _ acc' A T1) as Dch.
    pose proof (kp_n _ _ _ _ Hk) as Bn. pose proof (kp_m _ _ _ _ Hk) as Bm.
    assert (SF' : sub (length (h_shards h0)) F1 F0) by (eapply sub_trans; eauto). assert (SG' : sub (length (h_links h0)) G1 G0) by (eapply sub_trans; eauto). assert (SK' : sub (length (h_links h0)) K1 K0) by (eapply sub_trans; eauto). assert (Hk' : kept h0 h1 F0 G0) by (eapply kept_trans; eauto).
    pose proof (kp_m _ _ _ _ Hk') as Bm1.
    assert (DG2 : forall z, In z Gc -> ~ In z G12). { intros z Hz. destruct O1 as [_ _ OG1 _ _]. rewrite (ac_G _ _ _ _ _ _ _ _ _ _ _ _ _ _ _ _ _ _ _ _ _ _ _ _ A), app_assoc in OG1. exact (proj2 (nodup_in_mid _ _ _ z OG1 Hz)). }
    assert (IG : forall z, In z Gc -> In z G0 \/ (length (h_links h0) <= z)%nat). { intros z Hz. apply SG'. rewrite (ac_G _ _ _ _ _ _ _ _ _ _ _ _ _ _ _ _ _ _ _ _ _ _ _ _ A), !in_app_iff. tauto. }
    assert (Ecell : on_heap (get_cell ch) (h1, acc') = (Ok cc, (h1, acc'))) by (unfold on_heap, get_cell; cbn [fst snd]; now rewrite Hcc). rewrite (bind_run _ _ _ _ _ Ecell). clear Ecell. rewrite Eval. pose proof Hhc as (_ & _ & _ & Hkey).
    assert (Ev : (exists v la, (if isValueNode child then s_val child else None) = Some v /\ (if isValueNode child then c_val cc else None) = Some la /\ s_val child = Some v /\ c_val cc = Some la) \/ ((if isValueNode child then s_val child else None) = None /\ (if isValueNode child then c_val cc else None) = None)).
    { destruct (isValueNode child); [|auto]. unfold hval in Hvc. destruct (c_val cc), (s_val child); try contradiction; [left|auto]. eexists _, _. eauto. }
    destruct Ev as [(v & la & -> & -> & Esv & Ecv)|(-> & ->)].
    - rewrite Esv, Ecv in Hvc. unfold hval in Hvc. destruct Hvc as (EGv & l' & El & Ez & Et & Ep & Htag). rewrite Hkey.
      destruct (rename_ok h1 la l' (s_key child) El ltac:(intros E; exists []; cbn; now apply Htag)) as (h2 & E2 & Es2 & El2 & K2). rewrite Ez, Et in El2.
      set (lnk := mkLink (s_key child) (lsize v) (lto v)) in *.
      assert (ILa : In la Gc) by (rewrite EGc, EGv; now left).
      assert (K2' : kept h1 h2 Fc Gc) by (eapply kept_weaken; [exact K2|intros z []|intros z [<-|[]]; exact ILa]).
      assert (L2 : Forall2 (lat h2) acc' acc). { eapply lat_frame; [exact L1|exact K2'|]. intros z Hz Hz'. apply (Dch z Hz), in_or_app. now left. }
      assert (Oc2 : owns h2 ch (set_val (Some lnk) child) Fc Gc Kc).
      { destruct Oc as [Rc NF NG NK Nt]. constructor; [|exact NF|exact NG|exact NK|pose proof (kp_m _ _ _ _ K2); intros u Hu; specialize (Nt u Hu); lia]. rewrite EFc, EGc. eapply (hrep_intro h2 ch cc (set_val (Some lnk) child) Fv Gv Gv'); [rewrite Es2; exact Hcc|exact Hhc| |].
        - cbn [set_val s_key s_val]. rewrite Ecv. split; [exact EGv|]. exists lnk. split; [exact El2|]. split; [reflexivity|]. split; [reflexivity|]. split; [exists []; reflexivity|exact Htag].
        - cbn [set_val s_slots]. apply (proj2 (hrep_frame _ _ _ _ K2)); [exact Hrc|intros z _ []| |].
          + intros z Hz [<-|[]]. apply (DGv la); [rewrite EGv; now left|exact Hz].
          + intros z Hz [<-|[]]. exact (NK la ILa Hz). }
      assert (M2 : moved [] h1 h2 a (set_child (SShard (set_val (Some lnk) child)) i s1) F1 G1 K1) by (eapply (child_put h1 h2 [] [] a s1); [exact O1|exact A|intros z []|exact Oc2|apply sub_refl|apply sub_refl|apply sub_refl|exact K2'|intros z []]).
      assert (Ed : hdeliver hcb la (s_key child) (h1, acc') = (match cb acc lnk with Some e => Err e | None => Ok tt end, (h2, la :: acc'))).
      { unfold hdeliver. rewrite E2. rewrite (Hcb acc' la h2 acc lnk L2 El2). reflexivity. }
      rewrite (bind_run _ _ _ _ _ Ed). clear Ed.
      assert (W2 : winv h0 a F0 G0 K0 acc0 (set_child (SShard (set_val (Some lnk) child)) i s1) (lnk :: acc) h2 (la :: acc')).
      { eapply winv_step; [exact O1|exact SF'|exact SG'|exact SK'|exact Hk'|exact M2|constructor; assumption|]. intros z [<-|Hz]; [right; now apply IG|now apply Hin]. }
      destruct (cb acc lnk) as [e|]; [split; [reflexivity|exact W2]|]. apply IHn; [exact W2| |lia].
      eapply todo_next; [exact O1|exact A|exact K2'|]. intros z [<-|Hz]; [now apply DG2|]. intros Hz'. apply (Dch z Hz), in_or_app. now right.
    - pose proof (sim_cases _ _ _ _ (IH TG w cb hcb Hcb h1 ch child Fc Gc Kc acc acc' Oc L1 ltac:(intros z Hz Hz'; apply (Dch z Hz), in_or_app; now left))) as S2.
      assert (Up : forall c' acc2 h2 acc2', winv h1 ch Fc Gc Kc acc' c' acc2 h2 acc2' -> winv h0 a F0 G0 K0 acc0 (set_child (SShard c') i s1) acc2 h2 acc2' /\ todo h2 a (set_child (SShard c') i s1) (i + 1) acc2').
      { intros c' acc2 h2 acc2' (F2 & G2 & K2 & O2 & SF2 & SG2 & SK2 & Hk2 & L2 & In2).
        assert (M2 : moved [] h1 h2 a (set_child (SShard c') i s1) F1 G1 K1) by (eapply (child_put h1 h2 [] [] a s1); [exact O1|exact A|intros z []|exact O2|exact SF2|exact SG2|exact SK2|exact Hk2|intros z []]).
        split.
        - eapply winv_step; [exact O1|exact SF'|exact SG'|exact SK'|exact Hk'|exact M2|exact L2|]. intros z Hz. destruct (In2 z Hz) as [U|[U|U]]; [now apply Hin|right; now apply IG|right; right; lia].
        - eapply todo_next; [exact O1|exact A|exact Hk2|]. intros z Hz Hz'. destruct (In2 z Hz) as [U|[U|U]]; [apply (Dch z U), in_or_app; now right|exact (DG2 z U Hz')|].
          destruct (owns_bounds _ _ _ _ _ _ O1) as (_ & BG & _). assert (z < length (h_links h1))%nat; [|lia]. apply BG. rewrite (ac_G _ _ _ _ _ _ _ _ _ _ _ _ _ _ _ _ _ _ _ _ _ _ _ _ A), !in_app_iff. tauto. }
      destruct (walkTrie f w cb (child, acc)) as [[[]|e| |] [c' acc2]].
      + destruct S2 as ([] & [h2 acc2'] & E2 & P). rewrite (bind_run _ _ _ _ _ E2). destruct (Up c' acc2 h2 acc2' P) as [U1 U2]. apply IHn; [exact U1|exact U2|lia].
      + destruct S2 as ([h2 acc2'] & E2 & P). rewrite (bind_run _ _ _ _ _ E2). split; [reflexivity|]. exact (proj1 (Up c' acc2 h2 acc2' P)).
      + destruct S2 as (st2 & E2). rewrite (bind_run _ _ _ _ _ E2). exact I.
      + destruct S2 as (st2 & E2). rewrite (bind_run _ _ _ _ _ E2). exact I.
  Qed.
End Each.

Theorem walk_all f : walk_ok f.
Proof.
  induction f as [|f IH]; intros TG w cb hcb Hcb h a s F G K acc acc' O L D; [exact I|]. rewrite walk_eq, hwalk_eq. destruct (owns_parts _ _ _ _ _ _ O) as (c & Fv & Gv & Gv' & Hc & Hh & Hv & Hr & EF & EG & _).
  assert (Ec : on_heap (get_cell a) (h, acc') = (Ok c, (h, acc'))) by (unfold on_heap, get_cell; cbn [fst snd]; now rewrite Hc). rewrite (bind_run _ _ _ _ _ Ec). cbn [fst]. rewrite (hreps_len _ _ _ _ _ _ Hr).
  apply (each_sim f IH w cb hcb Hcb h a F G K acc'); [| |lia].
  - exists F, G, K. split; [exact O|]. repeat (split; [apply sub_refl|]). split; [apply kept_refl|]. auto.
  - intros c' Ft Gt Kt Hc' Hr' la Hla Hin. rewrite Hc in Hc'. injection Hc' as <-. cbn [skipn Z.to_nat] in Hr'. destruct (proj2 (hrep_det h) _ _ _ _ _ Hr' _ _ _ _ Hr) as (_ & -> & _). apply (D la Hla). rewrite EG. apply in_or_app. now right.
Qed.
