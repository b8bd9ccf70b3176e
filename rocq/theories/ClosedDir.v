(** Directories keep the store closed. *)
From Coq Require Import Permutation.
From Verif Require Import Base Pb FSNode Dag Builder HashBits Bitfield Hamt SpecHamt HamtExec Walk Directory SpecDir DirExec
  SpecFile SpecStore SpecStoreDir SpecAppend SpecModifier DagProofs DirBasic BuilderProofs ModifierProofs GrowProofs ClosedProofs.

(** Every link in the shard has [P] of its recorded size and the block it leads to. *)
Inductive sok (P : Z -> node -> Prop) : shard -> Prop :=
| sok_mk z b bf k v sl : (forall l, v = Some l -> P (lsize l) (lto l)) -> (forall l, In (SLink l) sl -> P (lsize l) (lto l)) ->
    (forall c, In (SShard c) sl -> sok P c) -> sok P (mkShard z b bf k v sl).

Lemma sok_mono (P Q : Z -> node -> Prop) s : (forall z m, P z m -> Q z m) -> sok P s -> sok Q s.
Proof. intros H. induction 1 as [z b bf k v sl H1 H2 _ IH]. constructor; eauto. Qed.

Section Shard.
  Variables (P : Z -> node -> Prop) (w : world).
  (** What can be fetched has its links in [P]. *)
  Variable HP : forall z m n, P z m -> dserv_get w m = Ok n -> forall l, In l (node_links n) -> P (lsize l) (lto l).

  Lemma sok_parts s : sok P s <-> (forall l, s_val s = Some l -> P (lsize l) (lto l)) /\ (forall l, In (SLink l) (s_slots s) -> P (lsize l) (lto l)) /\
    (forall c, In (SShard c) (s_slots s) -> sok P c).
  Proof. destruct s as [z b bf k v sl]. cbn. split; [now inversion 1|]. intros (H1 & H2 & H3). now constructor. Qed.
  Definition slok (x : slot shard) : Prop := match x with SLink l => P (lsize l) (lto l) | SShard c => sok P c end.
  Lemma sok_slots s bf sl : sok P s -> (forall x, In x sl -> slok x) -> sok P (set_slots bf sl s).
  Proof.
    rewrite !sok_parts. destruct s as [z b bf' k v sl']. cbn. intros (H1 & _) H. split; [exact H1|].
    split; [intros l Hl; exact (H _ Hl)|intros c Hc; exact (H _ Hc)].
  Qed.
  Lemma sok_in s x : sok P s -> In x (s_slots s) -> slok x.
  Proof. rewrite sok_parts. intros (_ & H2 & H3) Hx. destruct x; cbn; auto. Qed.
  Lemma in_set_nth {A} i (x y : A) l : In y (set_nth i x l) -> y = x \/ In y l.
  Proof. revert i. induction l as [|a l IH]; intros [|i] H; cbn in *; auto; destruct H as [H|H]; auto. apply IH in H. tauto. Qed.
  Lemma sok_set_child s x i : sok P s -> slok x -> sok P (set_child x i s).
  Proof.
    intros Hs Hx. unfold set_child. apply sok_slots; [exact Hs|]. intros y Hy. apply in_set_nth in Hy.
    destruct Hy as [->|Hy]; [exact Hx|]. eapply sok_in; eassumption.
  Qed.
  Lemma sok_builder s b : sok P s -> sok P (SetCidBuilder b s).
  Proof. rewrite !sok_parts. destruct s; cbn. tauto. Qed.
  Lemma sok_val s v : sok P s -> (forall l, v = Some l -> P (lsize l) (lto l)) -> sok P (set_val v s).
  Proof. rewrite !sok_parts. destruct s; cbn. tauto. Qed.

  (** What an operation on a shard keeps. *)
  Definition kp {A} (m : M shard A) (Q : A -> Prop) : Prop := forall s, sok P s -> sok P (snd (m s)) /\ forall a, fst (m s) = Ok a -> Q a.
  Lemma kp_bind {A B} (m : M shard A) (k : A -> M shard B) Q R : kp m Q -> (forall a, Q a -> kp (k a) R) -> kp (bind m k) R.
  Proof.
    intros Hm Hk s Hs. destruct (Hm s Hs) as (H1 & H2). unfold bind. destruct (m s) as [[a|e| |] s']; cbn [fst snd] in *;
      try (split; [exact H1|discriminate]). exact (Hk a (H2 a eq_refl) s' H1).
  Qed.
  Lemma kp_ret {A} (a : A) (Q : A -> Prop) : Q a -> kp (ret a) Q.
  Proof. intros H s Hs. split; [exact Hs|]. cbn. now intros b [= <-]. Qed.
  Lemma kp_lift {A} (r : res A) : kp (lift r) (fun a => r = Ok a).
  Proof. intros s Hs. split; [exact Hs|]. cbn. auto. Qed.
  Lemma kp_throw {A} e Q : kp (throw (A := A) e) Q.
  Proof. intros s Hs. split; [exact Hs|discriminate]. Qed.
  Lemma kp_fail {A} (r : res A) Q : (forall a, r <> Ok a) -> kp (lift r) Q.
  Proof. intros H s Hs. split; [exact Hs|]. cbn. intros a Ha. now destruct (H a). Qed.
  Lemma kp_upd f : (forall s s', sok P s -> f s = Ok s' -> sok P s') -> kp (upd_shard f) (fun _ => True).
  Proof. intros H s Hs. unfold upd_shard. destruct (f s) eqn:E; (split; [|auto]); auto. cbn. eapply H; eassumption. Qed.
  Lemma kp_get : kp get_shard (fun s => sok P s).
  Proof. intros s Hs. split; [exact Hs|]. now intros a [= <-]. Qed.

  Lemma in_take {A} i (l : list A) x : In x (ztake i l) -> In x l.
  Proof. apply in_firstn. Qed.
  Lemma in_drop {A} i (l : list A) x : In x (zdrop i l) -> In x l.
  Proof. apply in_skipn. Qed.
  Lemma sok_new z k v s : (forall l, v = Some l -> P (lsize l) (lto l)) -> NewShardValue z k v = Ok s -> sok P s.
  Proof.
    unfold NewShardValue, makeShard. destruct (Logtwo z); try discriminate. cbn [rbind]. destruct (newChilder z); try discriminate.
    cbn [rbind]. intros Hv [= <-]. constructor; [exact Hv|intros l []|intros c []].
  Qed.
  Lemma kp_insert key v idx : (forall l, v = Some l -> P (lsize l) (lto l)) -> kp (upd_shard (insert key v idx)) (fun _ => True).
  Proof.
    intros Hv. apply kp_upd. intros s s' Hs. unfold insert. destruct v as [l|]; [|discriminate]. destruct (sliceIndex s idx) as [i| | |]; try discriminate.
    cbn [rbind]. destruct (NewShardValue _ _ _) as [sd| | |] eqn:En; try discriminate. cbn [rbind]. destruct (_ <? i); [discriminate|].
    destruct (bf_set _ _); try discriminate. cbn [rbind]. intros [= <-]. apply sok_slots; [exact Hs|]. intros x Hx. apply in_app_iff in Hx.
    destruct Hx as [Hx|[<-|Hx]]; [apply in_take in Hx; eapply sok_in; eassumption| |apply in_drop in Hx; eapply sok_in; eassumption].
    cbn. eapply sok_new; [|exact En]. intros l0 [= <-]. cbn. auto.
  Qed.
  Lemma kp_rm idx : kp (upd_shard (rm idx)) (fun _ => True).
  Proof.
    apply kp_upd. intros s s' Hs. unfold rm. destruct (sliceIndex s idx) as [i| | |]; try discriminate.
    cbn [rbind]. destruct (check s i); try discriminate. cbn [rbind]. destruct (bf_unset _ _); try discriminate. cbn [rbind]. intros [= <-].
    apply sok_slots; [exact Hs|]. intros x Hx. apply in_app_iff in Hx.
    destruct Hx as [Hx|Hx]; [apply in_take in Hx|apply in_drop in Hx]; eapply sok_in; eassumption.
  Qed.
  Lemma sok_from_dag nd s : (forall l, In l (node_links nd) -> P (lsize l) (lto l)) -> NewHamtFromDag nd = Ok s -> sok P s.
  Proof.
    destruct nd as [|p d ls]; [discriminate|]. cbn [node_links]. intros H. unfold NewHamtFromDag. destruct (FSNodeFromBytes d); try discriminate.
    cbn [rbind]. destruct (negb _); [discriminate|]. destruct (negb _); [discriminate|]. destruct (makeShard _ _ _) as [ds| | |]; try discriminate.
    cbn [rbind]. destruct (bf_setbytes _ _); try discriminate. cbn [rbind]. intros [= <-].
    constructor; [discriminate| |].
    - intros l Hl. apply in_map_iff in Hl. destruct Hl as (x & [= ->] & Hx). auto.
    - intros c Hc. apply in_map_iff in Hc. destruct Hc as (x & [=] & _).
  Qed.
  Lemma kp_get_child i : kp (get_child w i) (fun c => sok P c).
  Proof.
    intros s Hs. unfold get_child. destruct (check s i); try (split; [exact Hs|discriminate]).
    destruct (nth_error (s_slots s) (Z.to_nat i)) as [[l|c]|] eqn:En; try (split; [exact Hs|discriminate]); apply nth_error_In in En.
    - pose proof (sok_in _ _ Hs En) as Hl. cbn in Hl. destruct (loadChild w s l) as [c| | |] eqn:El; try (split; [exact Hs|discriminate]).
      assert (Hc : sok P c).
      { unfold loadChild in El. destruct (childLinkType s l) as [v| | |]; try discriminate. cbn [rbind] in El. destruct v.
        - unfold makeShardValue in El. destruct (makeShard _ _ _) as [v| | |] eqn:Ev; try discriminate. cbn [rbind] in El.
          destruct (_ <? _)%nat; [discriminate|]. injection El as <-. apply sok_new in Ev; [|discriminate]. apply sok_parts in Ev. destruct v; cbn in *.
          constructor; [now intros l0 [= <-]|tauto|tauto].
        - destruct (dserv_get w (lto l)) as [nd| | |] eqn:Eg; try discriminate. cbn [rbind] in El. eapply sok_from_dag; [|exact El]. eapply HP; [exact Hl|exact Eg]. }
      split; [cbn [snd]; now apply sok_set_child|]. intros x [= <-]. exact Hc.
    - split; [exact Hs|]. intros x [= <-]. exact (sok_in _ _ Hs En).
  Qed.
  Lemma kp_on_child {A} i c (m : M shard A) Q : sok P c -> kp m Q -> kp (on_child i c m) (fun x => Q (fst x) /\ sok P (snd x)).
  Proof.
    intros Hc Hm s Hs. destruct (Hm c Hc) as (H1 & H2). unfold on_child. destruct (m c) as [[a|e| |] c']; cbn [fst snd] in *;
      (split; [now apply sok_set_child|]); try discriminate. intros x [= <-]. cbn. auto.
  Qed.
  Lemma kp_set i x : slok x -> kp (upd_shard (fun s => Ok (set_child x i s))) (fun _ => True).
  Proof. intros Hx. apply kp_upd. intros s s' Hs [= <-]. now apply sok_set_child. Qed.

  Variable hash : bytes -> bytes.
  Lemma kp_swapValue fuel : forall hv key v, (forall l, v = Some l -> P (lsize l) (lto l)) -> kp (swapValue hash fuel w hv key v) (fun o => forall l, o = Some l -> P (lsize l) (lto l)).
  Proof.
    induction fuel as [|f IH]; intros hv key v Hv; cbn [swapValue]; [apply kp_fail; discriminate|].
    eapply kp_bind; [apply kp_get|]. intros ds Hds. eapply kp_bind; [apply kp_lift|]. intros [idx hv1] _.
    eapply kp_bind; [apply kp_lift|]. intros h _. destruct h; cbn [negb].
    2: { eapply kp_bind; [now apply kp_insert|]. intros _ _. apply kp_ret. discriminate. }
    eapply kp_bind; [apply kp_lift|]. intros i _. eapply kp_bind; [apply kp_get_child|]. intros child Hch. cbn beta in Hch.
    pose proof Hch as Hpc. apply sok_parts in Hpc. destruct Hpc as (Hcv & Hcl & Hcs).
    destruct (isValueNode child).
    - destruct (bytes_eqb _ _).
      + destruct v as [l|]; (eapply kp_bind; [|intros _ _; now apply kp_ret]); [|apply kp_rm]. apply kp_set. cbn. now apply sok_val.
      + destruct v as [l|]; [|apply kp_throw]. eapply kp_bind; [apply kp_lift|]. intros fresh Hfr.
        assert (Hf : sok P (SetCidBuilder (s_builder ds) fresh)) by (apply sok_builder; eapply sok_new; [|exact Hfr]; discriminate).
        destruct (IH hv1 key (Some l) Hv _ Hf) as (H1 & _). destruct (swapValue hash f w hv1 key (Some l) _) as [[o|e| |] fresh1]; cbn [snd] in H1;
          try apply kp_throw; try (apply kp_fail; discriminate).
        destruct (IH (newConsumedHashBits hash (s_key child) (hb_consumed hv1)) (s_key child) (s_val child) Hcv _ H1) as (H2 & _).
        destruct (swapValue hash f w _ _ _ fresh1) as [[o2|e| |] fresh2]; cbn [snd] in H2; try apply kp_throw; try (apply kp_fail; discriminate).
        eapply kp_bind; [|intros _ _; apply kp_ret; discriminate]. now apply kp_set.
    - eapply kp_bind; [apply kp_on_child; [exact Hch|apply IH; exact Hv]|]. intros [old child'] (Hold & Hc'). cbn [fst snd] in *.
      destruct v as [l|]; [now apply kp_ret|]. destruct (s_slots child') as [|[sl|sc] [|? ?]] eqn:Es; try (now apply kp_ret).
      + eapply kp_bind; [apply kp_rm|]. intros _ _. now apply kp_ret.
      + eapply kp_bind; [apply kp_lift|]. intros isval _. destruct isval; [|now apply kp_ret].
        eapply kp_bind; [|intros _ _; now apply kp_ret]. apply kp_set. eapply sok_in; [exact Hc'|]. rewrite Es. now left.
      + destruct (isValueNode sc); [|now apply kp_ret].
        eapply kp_bind; [|intros _ _; now apply kp_ret]. apply kp_set. eapply sok_in; [exact Hc'|]. rewrite Es. now left.
  Qed.
  Lemma kp_getValue fuel : forall hv key, kp (getValue fuel w hv key) (fun o => forall l, o = Some l -> P (lsize l) (lto l)).
  Proof.
    induction fuel as [|f IH]; intros hv key; cbn [getValue]; [apply kp_fail; discriminate|].
    eapply kp_bind; [apply kp_get|]. intros ds _. eapply kp_bind; [apply kp_lift|]. intros [idx hv1] _.
    eapply kp_bind; [apply kp_lift|]. intros h _. destruct h; [|apply kp_throw].
    eapply kp_bind; [apply kp_lift|]. intros i _. eapply kp_bind; [apply kp_get_child|]. intros child Hch. cbn beta in Hch.
    destruct (isValueNode child).
    - destruct (bytes_eqb _ _); [|apply kp_throw]. apply kp_ret. intros l Hl. apply sok_parts in Hch. exact (proj1 Hch l Hl).
    - eapply kp_bind; [apply kp_on_child; [exact Hch|apply IH]|]. intros [r c'] (H & _). now apply kp_ret.
  Qed.
  Lemma kp_SetLink name l : P (lsize l) (lto l) -> kp (SetLink hash w name l) (fun _ => True).
  Proof.
    intros Hl. unfold SetLink. eapply kp_bind; [apply kp_get|]. intros ds _. eapply kp_bind; [|intros _ _; now apply kp_ret].
    apply kp_swapValue. now intros x [= <-].
  Qed.
  Lemma kp_setLinks ls : (forall l, In l ls -> P (lsize l) (lto l)) -> kp (setLinks hash w ls) (fun _ => True).
  Proof.
    induction ls as [|l r IH]; intros H; cbn [setLinks]; [now apply kp_ret|]. eapply kp_bind; [apply kp_SetLink, H; now left|].
    intros _ _. apply IH. intros x Hx. apply H. now right.
  Qed.

  (** The walk with a callback. *)
  Lemma walkTrie_sok fuel cb : forall st, sok P (fst st) -> (forall l, In l (snd st) -> P (lsize l) (lto l)) ->
    sok P (fst (snd (walkTrie fuel w cb st))) /\ forall l, In l (snd (snd (walkTrie fuel w cb st))) -> P (lsize l) (lto l).
  Proof.
    induction fuel as [|f IH]; intros st Hs Ha; [now split|]. cbn [walkTrie].
    set (each := fix each (n : nat) (i : Z) (st : shard * list link) {struct n} : res unit * (shard * list link) := _).
    assert (G : forall n i st, sok P (fst st) -> (forall l, In l (snd st) -> P (lsize l) (lto l)) ->
      sok P (fst (snd (each n i st))) /\ forall l, In l (snd (snd (each n i st))) -> P (lsize l) (lto l)); [|now apply G].
    clear st Hs Ha. induction n as [|m IHn]; intros i [s acc] Hs Ha; cbn [fst snd] in *; [now split|]. cbn [each].
    destruct (kp_get_child i s Hs) as (H1 & H2). destruct (get_child w i s) as [[c|e| |] s1]; cbn [fst snd] in *; try (now split).
    specialize (H2 c eq_refl). cbn beta in H2. destruct (if isValueNode c then s_val c else None) as [v|] eqn:Ev.
    - assert (Hv : P (lsize v) (lto v)). { destruct (isValueNode c); [|discriminate]. apply sok_parts in H2. exact (proj1 H2 v Ev). }
      assert (Hs2 : sok P (set_child (SShard (set_val (Some (mkLink (s_key c) (lsize v) (lto v))) c)) i s1)).
      { apply sok_set_child; [exact H1|]. cbn. apply sok_val; [exact H2|]. now intros l [= <-]. }
      assert (Ha2 : forall l, In l (mkLink (s_key c) (lsize v) (lto v) :: acc) -> P (lsize l) (lto l)) by (intros l [<-|Hl]; [exact Hv|auto]).
      destruct (cb acc _); [now split|]. now apply IHn.
    - destruct (IH (c, acc) H2 Ha) as (H3 & H4). destruct (walkTrie f w cb (c, acc)) as [[[]|e| |] [c' acc']]; cbn [fst snd] in *;
        try (split; [now apply sok_set_child|exact H4]). apply IHn; [now apply sok_set_child|exact H4].
  Qed.
End Shard.

(** ** Saving a shard *)

Lemma bind_eq {S A B} (m : M S A) (k : A -> M S B) s : bind m k s =
  match m s with (Ok a, s') => k a s' | (Err e, s') => (Err e, s') | (Panic, s') => (Panic, s') | (Fuel, s') => (Fuel, s') end.
Proof. reflexivity. Qed.

Definition sokw (w : world) (s : shard) : Prop := sok (fun _ m => stored w m = true) s.
Lemma sokw_grow w w' s : cgrow w w' -> sokw w s -> sokw w' s.
Proof. intros G. apply sok_mono. intros z m. now apply cgrow_stored. Qed.

Lemma Node_cgrow s w : closed w -> sokw w s ->
  cgrow w (snd (Node s w)) /\ forall n, fst (Node s w) = Ok n -> linked (snd (Node s w)) (node_links n) /\ stored (snd (Node s w)) n = true.
Proof.
  revert w.
  assert (K : forall s, (forall w, closed w -> sokw w s -> cgrow w (snd (Node s w)) /\
     forall n, fst (Node s w) = Ok n -> linked (snd (Node s w)) (node_links n) /\ stored (snd (Node s w)) n = true)); [|intros w; apply K].
  clear s. fix IH 1. intros [z b bf k v sl] w Hc Hs. inversion_clear Hs as [? ? ? ? ? ? _ H2 H3]. cbn [Node]. set (pad := length (hexX (z - 1))).
  set (go := fix go (slots : list (slot shard)) (idxs : list Z) {struct slots} : M world (list link) := _).
  assert (G : forall sl idxs w, closed w -> (forall l, In (SLink l) sl -> stored w (lto l) = true) -> (forall c, In (SShard c) sl -> sokw w c) ->
    cgrow w (snd (go sl idxs w)) /\ forall ls, fst (go sl idxs w) = Ok ls -> linked (snd (go sl idxs w)) ls).
  { clear w Hc H2 H3. fix IHl 1. intros [|x sr] [|idx ir] w Hc Hl Hsh; cbn [go]; try (split; [apply cgrow_refl|]; cbn; first [discriminate|intros ls [= <-]; apply linked_nil]).
    match goal with |- context [bind ?m _ w] => set (one := m) end. rewrite (bind_eq one).
    assert (G1 : cgrow w (snd (one w)) /\ forall l, fst (one w) = Ok l -> stored (snd (one w)) (lto l) = true).
    { unfold one. destruct x as [l|ch].
      - destruct (_ <? _)%nat; (split; [apply cgrow_refl|]); cbn; [discriminate|]. intros l0 [= <-]. cbn. apply Hl. now left.
      - assert (Hch : sokw w ch) by (apply Hsh; now left). rewrite bind_eq. destruct (if isValueNode ch then s_val ch else None) as [v0|] eqn:Ev.
        + cbn. split; [apply cgrow_refl|]. intros l0 [= <-]. cbn. destruct (isValueNode ch); [|discriminate]. unfold sokw in Hch. apply sok_parts in Hch. exact (proj1 Hch v0 Ev).
        + destruct (IH ch w Hc Hch) as (Ga & Gb). unfold bind. destruct (Node ch w) as [[nd| | |] w1]; cbn [fst snd] in *; try (split; [exact Ga|discriminate]).
          destruct (Gb nd eq_refl) as (Gl & _). pose proof (add_cgrow nd None w1 Gl) as Ga2. pose proof (add_stored nd None w1) as Gs.
          destruct (dserv_add nd None w1) as [[[]| | |] w2]; cbn [fst snd ret] in *; (split; [eapply cgrow_trans; eassumption|]); try discriminate.
          intros l0 [= <-]. cbn. auto. }
    destruct G1 as (G1 & G2). destruct (one w) as [[l| | |] w1]; cbn [fst snd] in *; try (split; [exact G1|discriminate]).
    assert (Hc1 : closed w1) by (eapply cgrow_closed; eassumption).
    destruct (IHl sr ir w1 Hc1) as (G3 & G4).
    { intros l0 Hl0. eapply cgrow_stored; [exact G1|]. apply Hl. now right. }
    { intros c0 Hc0. eapply sokw_grow; [exact G1|]. apply Hsh. now right. }
    rewrite bind_eq. destruct (go sr ir w1) as [[r| | |] w2]; cbn [fst snd ret] in *; (split; [eapply cgrow_trans; eassumption|]); try discriminate.
    intros ls [= <-]. intros l0 [<-|Hl0]; [|now apply (G4 r eq_refl)]. eapply cgrow_stored; [exact G3|]. now apply G2. }
  rewrite bind_eq. cbn [lift]. destruct (set_bits bf 0 (Z.to_nat z)) as [idxs| | |]; try (split; [apply cgrow_refl|discriminate]).
  destruct (G sl idxs w Hc H2 H3) as (G1 & G2). rewrite bind_eq. destruct (go sl idxs w) as [[ls| | |] w1]; cbn [fst snd] in *; try (split; [exact G1|discriminate]).
  specialize (G2 ls eq_refl). rewrite bind_eq. cbn [lift]. destruct (HAMTShardData _ _ _) as [data| | |]; try (split; [exact G1|discriminate]).
  set (out := NProto (proto_prefix b) data ls). pose proof (add_cgrow out None w1 G2) as Ga. pose proof (add_stored out None w1) as Gs. rewrite bind_eq.
  assert (Gl : linked (snd (dserv_add out None w1)) (node_links (seal out))) by (apply linked_seal; eapply linked_grow; [exact Ga|exact G2]).
  destruct (dserv_add out None w1) as [[[]| | |] w2]; cbn [fst snd ret] in *; (split; [eapply cgrow_trans; eassumption|]); try discriminate.
  intros n [= <-]. split; [exact Gl|auto].
Qed.

(** ** Operations on a shard *)

Lemma closed_HP w : closed w -> forall (z : Z) m n, stored w m = true -> dserv_get w m = Ok n -> forall l, In l (node_links n) -> stored w (lto l) = true.
Proof. intros Hc z m n _ H. exact (linked_get _ _ _ Hc H). Qed.

Section Hamt.
  Variable hash : bytes -> bytes.

  Lemma swap_closed k n s w : closed w -> has_children w n -> sokw w s ->
    let '(_, (s', w')) := Swap hash k n (s, w) in cgrow w w' /\ sokw w' s'.
  Proof.
    intros Hc Hn Hs. unfold Swap. pose proof (add_cgrow n None w Hn) as G. pose proof (add_stored n None w) as Gs.
    destruct (dserv_add n None w) as [[[]| | |] w1]; cbn [fst snd] in *; try (split; [exact G|eapply sokw_grow; eassumption]).
    assert (Hc1 : closed w1) by (eapply cgrow_closed; eassumption). assert (Hs1 : sokw w1 s) by (eapply sokw_grow; eassumption).
    match goal with |- context [swapValue hash ?f w1 ?hv k ?v s] =>
      destruct (kp_swapValue (fun _ m => stored w1 m = true) w1 (closed_HP w1 Hc1) hash f hv k v) with (s := s) as (H & _); [|exact Hs1|destruct (swapValue hash f w1 hv k v s) as [r s1]] end.
    - intros l [= <-]. cbn. auto.
    - split; [exact G|exact H].
  Qed.
  Lemma take_closed k s w : closed w -> sokw w s -> sokw w (snd (Take hash w k s)).
  Proof. intros Hc Hs. unfold Take. apply (kp_swapValue (fun _ m => stored w m = true) w (closed_HP w Hc)); [discriminate|exact Hs]. Qed.
  Lemma setlink_closed k l s w : closed w -> stored w (lto l) = true -> sokw w s -> sokw w (snd (SetLink hash w k l s)).
  Proof. intros Hc Hl Hs. apply (kp_SetLink (fun _ m => stored w m = true) w (closed_HP w Hc)); assumption. Qed.
  Lemma find_closed k s w : closed w -> sokw w s -> sokw w (snd (Find hash w k s)).
  Proof. intros Hc Hs. unfold Find. apply (kp_getValue (fun _ m => stored w m = true) w (closed_HP w Hc)). exact Hs. Qed.
  Lemma each_closed cb s w : closed w -> sokw w s ->
    sokw w (fst (snd (ForEachLink w cb (s, [])))) /\ linked w (snd (snd (ForEachLink w cb (s, [])))).
  Proof. intros Hc Hs. unfold ForEachLink. apply (walkTrie_sok (fun _ m => stored w m = true) w (closed_HP w Hc)); [exact Hs|intros l []]. Qed.
  Lemma fromdag_closed n s w : linked w (node_links n) -> NewHamtFromDag n = Ok s -> sokw w s.
  Proof. intros H. now apply sok_from_dag. Qed.

  Lemma hexec_closed op s w : closed w -> sokw w s -> given_shard w op ->
    cgrow w (snd (snd (hexec hash op (s, w)))) /\ sokw (snd (snd (hexec hash op (s, w)))) (fst (snd (hexec hash op (s, w)))).
  Proof.
    intros Hc Hs Hg. destruct op; cbn [hexec given_shard] in *.
    - unfold Set_. rewrite bind_eq. pose proof (swap_closed k n s w Hc Hg Hs) as H. destruct (Swap hash k n (s, w)) as [[o| | |] [s' w']]; exact H.
    - pose proof (setlink_closed k l s w Hc Hg Hs) as H. destruct (SetLink hash w k l s). split; [apply cgrow_refl|exact H].
    - pose proof (swap_closed k n s w Hc Hg Hs) as H. destruct (Swap hash k n (s, w)) as [[o| | |] [s' w']]; exact H.
    - unfold Remove. rewrite bind_eq. pose proof (take_closed k s w Hc Hs) as H. destruct (Take hash w k s) as [[o| | |] s']; (split; [apply cgrow_refl|exact H]).
    - pose proof (take_closed k s w Hc Hs) as H. destruct (Take hash w k s) as [[o| | |] s']; (split; [apply cgrow_refl|exact H]).
    - pose proof (find_closed k s w Hc Hs) as H. destruct (Find hash w k s) as [[o| | |] s']; (split; [apply cgrow_refl|exact H]).
    - destruct (each_closed (fun _ _ => None) s w Hc Hs) as (H & _). destruct (ForEachLink w _ (s, [])) as [r [s' acc]]. split; [apply cgrow_refl|exact H].
    - destruct (Node_cgrow s w Hc Hs) as (G & _). destruct (Node s w) as [r w']. split; [exact G|eapply sokw_grow; eassumption].
    - destruct (Node_cgrow s w Hc Hs) as (G & H). assert (Hs' : sokw (snd (Node s w)) s) by (eapply sokw_grow; eassumption).
      destruct (Node s w) as [[n| | |] w']; cbn [fst snd] in *; try (split; [exact G|exact Hs']).
      destruct (H n eq_refl) as (Hl & _). destruct (NewHamtFromDag n) as [s'| | |] eqn:E; (split; [exact G|]); try exact Hs'. eapply fromdag_closed; eassumption.
  Qed.
  Lemma hrun_closed ops : forall s w, closed w -> sokw w s ->
    (forall a op b, ops = a ++ op :: b -> given_shard (snd (snd (hrun hash a (s, w)))) op) ->
    cgrow w (snd (snd (hrun hash ops (s, w)))) /\ sokw (snd (snd (hrun hash ops (s, w)))) (fst (snd (hrun hash ops (s, w)))).
  Proof.
    induction ops as [|op r IH]; intros s w Hc Hs Hg; [split; [apply cgrow_refl|exact Hs]|]. cbn [hrun].
    destruct (hexec_closed op s w Hc Hs (Hg [] op r eq_refl)) as (G & H). destruct (hexec hash op (s, w)) as [v [s1 w1]] eqn:E1. cbn [fst snd] in *.
    assert (Hc1 : closed w1) by (eapply cgrow_closed; eassumption).
    specialize (IH s1 w1 Hc1 H). destruct (hrun hash r (s1, w1)) as [os sw2]. cbn [snd] in *.
    destruct IH as (G2 & H2); [|split; [eapply cgrow_trans; eassumption|exact H2]].
    intros a op' b ->. specialize (Hg (op :: a) op' b eq_refl). cbn [hrun] in Hg. rewrite E1 in Hg. now destruct (hrun hash a (s1, w1)).
  Qed.

  (** ** Directories *)

  Variable width : Z.
  Definition dok (st : directory * world) : Prop :=
    match fst st with DBasic b => linked (snd st) (b_links b) | DHamt h => sokw (snd st) (h_shard h) end.

  Lemma bRemove_linked w k b : linked w (b_links b) -> linked w (b_links (snd (bRemoveChild k b))).
  Proof.
    intros H. unfold bRemoveChild. destruct (GetNodeLink k (b_links b)); [|exact H]. cbn. eapply linked_incl; [|exact H].
    intros x Hx. apply filter_In in Hx. tauto.
  Qed.
  Lemma addLink_linked w k l b : linked w (b_links b) -> stored w (lto l) = true -> linked w (b_links (snd (addLinkChild k l b))).
  Proof.
    intros H Hl. unfold addLinkChild. pose proof (bRemove_linked w k b H) as Hr. destruct (bRemoveChild k b) as [r d1]. cbn [snd] in Hr.
    assert (G : linked w (b_links (addToEstimatedSize k (lto l) (b_set_links (AddRawLink k l (b_links d1)) d1)))).
    { cbn. apply linked_app; [exact Hr|]. intros x [<-|[]]. exact Hl. }
    destruct r as [[]|e| |]; try exact Hr; [exact G|]. destruct e; try exact Hr. exact G.
  Qed.
  Lemma addLinks_linked w ls : linked w ls -> forall b, linked w (b_links b) -> linked w (b_links (snd (addLinks ls b))).
  Proof.
    induction ls as [|l r IH]; intros Hls b Hb; [exact Hb|]. cbn [addLinks]. rewrite bind_eq.
    pose proof (addLink_linked w (lname l) l b Hb (Hls l (or_introl eq_refl))) as H. destruct (addLinkChild (lname l) l b) as [[[]| | |] b1]; try exact H.
    apply IH; [|exact H]. intros x Hx. apply Hls. now right.
  Qed.
  Lemma sharding_ok w b h : closed w -> linked w (b_links b) -> switchToSharding hash width w b = Ok h -> sokw w (h_shard h).
  Proof.
    intros Hc Hb. unfold switchToSharding, new_dir, NewShard. destruct (NewShardValue width [] None) as [s0| | |] eqn:E; cbn [rmap rbind]; try discriminate.
    assert (Hs : sokw w (SetCidBuilder (Some (b_prefix b)) s0)) by (apply sok_builder; eapply sok_new; [|exact E]; discriminate).
    destruct (kp_setLinks (fun _ m => stored w m = true) w (closed_HP w Hc) hash (b_links b) Hb _ Hs) as (H & _).
    destruct (setLinks hash w (b_links b) _) as [[[]| | |] s1]; try discriminate. now intros [= <-].
  Qed.
  Lemma basic_ok w h : closed w -> sokw w (h_shard h) ->
    sokw w (h_shard (snd (switchToBasic w h))) /\ forall b, fst (switchToBasic w h) = Ok b -> linked w (b_links b).
  Proof.
    intros Hc Hs. unfold switchToBasic, newEmptyBasicDirectory. destruct FolderPBData as [d| | |]; cbn [rmap rbind]; try (split; [exact Hs|discriminate]).
    set (b0 := bSetCidBuilder _ _). destruct (each_closed (switch_cb b0) (h_shard h) w Hc Hs) as (H1 & H2).
    destruct (ForEachLink w _ _) as [[[]| | |] [s acc]]; cbn [fst snd] in *; (split; [exact H1|]); try discriminate.
    intros b [= <-]. apply addLinks_linked; [|intros x []]. intros x Hx. apply in_rev in Hx. now apply H2.
  Qed.
  Lemma hAdd_ok k n h w : closed w -> has_children w n -> sokw w (h_shard h) ->
    let '(_, (h', w')) := hAddChild hash k n (h, w) in cgrow w w' /\ sokw w' (h_shard h').
  Proof.
    intros Hc Hn Hs. unfold hAddChild. pose proof (swap_closed k n (h_shard h) w Hc Hn Hs) as H.
    destruct (Swap hash k n (h_shard h, w)) as [[o| | |] [s' w']]; exact H.
  Qed.
  Lemma hRemove_ok k h w : closed w -> sokw w (h_shard h) -> sokw w (h_shard (snd (hRemoveChild hash w k h))).
  Proof.
    intros Hc Hs. unfold hRemoveChild. pose proof (take_closed k (h_shard h) w Hc Hs) as H. destruct (Take hash w k (h_shard h)) as [[o| | |] s']; exact H.
  Qed.
  Lemma hFind_ok k h w : closed w -> sokw w (h_shard h) -> sokw w (h_shard (snd (hFind hash w k h))).
  Proof.
    intros Hc Hs. unfold hFind. pose proof (find_closed k (h_shard h) w Hc Hs) as H. destruct (Find hash w k (h_shard h)) as [[[l|]| | |] s']; exact H.
  Qed.
  Lemma needs_ok mayc T k n h r h' w : closed w -> sokw w (h_shard h) -> needsToSwitchToBasicDir hash w mayc T k n h r h' -> sokw w (h_shard h').
  Proof.
    intros Hc Hs. unfold needsToSwitchToBasicDir. destruct (T =? 0); [intros (_ & ->); exact Hs|].
    pose proof (find_closed k (h_shard h) w Hc Hs) as H. destruct (Find hash w k (h_shard h)) as [[[l|]|e| |] s']; cbn [snd] in H;
      try (intros (-> & _); exact H); try (intros (_ & ->); exact H).
    destruct e; try (intros (-> & _); exact H); intros (_ & ->); exact H.
  Qed.

  Lemma dAdd_ok mayc T k n d w r st' : closed w -> dok (d, w) -> stored w (seal n) = true -> dAddChild hash width mayc T k n (d, w) r st' ->
    cgrow w (snd st') /\ dok st'.
  Proof.
    intros Hc Hd Hn. assert (Hch : has_children w n).
    { intros l Hl. apply (Hc (seal n) Hn). destruct n as [|p b ls]; [exact Hl|]. cbn in *. eapply Permutation_in; [apply Permutation_sym, lsort_perm|exact Hl]. }
    unfold dAddChild. destruct d as [b|h]; cbn [dok fst snd] in Hd.
    - destruct (needsToSwitchToHAMTDir T k (Some n) b).
      + destruct (switchToSharding hash width w b) as [h| | |] eqn:E; try (intros (_ & ->); split; [apply cgrow_refl|exact Hd]).
        pose proof (hAdd_ok k n h w Hc Hch (sharding_ok w b h Hc Hd E)) as H.
        destruct (hAddChild hash k n (h, w)) as [[[]| | |] [h1 w1]]; intros (_ & ->); (split; [apply H|]); first [exact (proj2 H)|exact (linked_grow _ _ _ (proj1 H) Hd)].
      + assert (Hl : stored w (lto (make_link [] n)) = true) by exact Hn. pose proof (addLink_linked w k (make_link [] n) b Hd Hl) as H. unfold bAddChild.
        destruct (addLinkChild k (make_link [] n) b) as [r1 b1]. intros (_ & ->). split; [apply cgrow_refl|exact H].
    - intros (ra & h1 & Hn1 & K). pose proof (needs_ok _ _ _ _ _ _ _ w Hc Hd Hn1) as H1.
      destruct ra as [[|]| | |]; try (destruct K as (_ & ->); split; [apply cgrow_refl|exact H1]).
      + destruct K as (rb & h2 & Hb & K). unfold det in Hb. destruct (basic_ok w h1 Hc H1) as (H2 & H3). rewrite Hb in H2, H3. cbn [fst snd] in *.
        destruct rb as [b| | |]; try (destruct K as (_ & ->); split; [apply cgrow_refl|exact H2]). specialize (H3 b eq_refl).
        assert (Hl : stored w (lto (make_link [] n)) = true) by exact Hn. pose proof (addLink_linked w k (make_link [] n) b H3 Hl) as H4. unfold bAddChild in K.
        destruct (addLinkChild k (make_link [] n) b) as [[[]| | |] b1]; destruct K as (_ & ->); (split; [apply cgrow_refl|]); try exact H2. exact H4.
      + pose proof (hAdd_ok k n h1 w Hc Hch H1) as H. destruct (hAddChild hash k n (h1, w)) as [r1 [h2 w1]]. destruct K as (_ & ->). exact H.
  Qed.
  Lemma dRemove_ok mayc T k d w r st' : closed w -> dok (d, w) -> dRemoveChild hash mayc T k (d, w) r st' -> cgrow w (snd st') /\ dok st'.
  Proof.
    intros Hc Hd. unfold dRemoveChild. destruct d as [b|h]; cbn [dok fst snd] in Hd.
    - pose proof (bRemove_linked w k b Hd) as H. destruct (bRemoveChild k b) as [r1 b1]. intros (_ & ->). split; [apply cgrow_refl|exact H].
    - intros (ra & h1 & Hn1 & K). pose proof (needs_ok _ _ _ _ _ _ _ w Hc Hd Hn1) as H1.
      destruct ra as [[|]| | |]; try (destruct K as (_ & ->); split; [apply cgrow_refl|exact H1]).
      + destruct K as (rb & h2 & Hb & K). unfold det in Hb. destruct (basic_ok w h1 Hc H1) as (H2 & H3). rewrite Hb in H2, H3. cbn [fst snd] in *.
        destruct rb as [b| | |]; try (destruct K as (_ & ->); split; [apply cgrow_refl|exact H2]). specialize (H3 b eq_refl).
        pose proof (bRemove_linked w k b H3) as H4. destruct (bRemoveChild k b) as [[[]| | |] b1]; destruct K as (_ & ->); (split; [apply cgrow_refl|]); try exact H2. exact H4.
      + pose proof (hRemove_ok k h1 w Hc H1) as H. destruct (hRemoveChild hash w k h1) as [r1 h2]. destruct K as (_ & ->). split; [apply cgrow_refl|exact H].
  Qed.
  Lemma fromnode_ok n d w : linked w (node_links n) -> NewDirectoryFromNode n = Ok d -> dok (d, w).
  Proof.
    destruct n as [|p b ls]; [discriminate|]. intros H. unfold NewDirectoryFromNode. destruct (FSNodeFromBytes b) as [f| | |]; cbn [rbind]; try discriminate.
    destruct (_ =? _); [intros [= <-]; exact H|]. destruct (_ =? _); [|discriminate]. destruct (NewHamtFromDag (NProto p b ls)) as [s| | |] eqn:E; cbn [rmap rbind]; try discriminate.
    intros [= <-]. cbn. now apply (fromdag_closed (NProto p b ls)).
  Qed.
  Lemma dReload_ok d w : closed w -> dok (d, w) -> cgrow w (snd (snd (dReload (d, w)))) /\ dok (snd (dReload (d, w))).
  Proof.
    intros Hc Hd. unfold dReload, dGetNode. destruct d as [b|h]; cbn [dok fst snd] in Hd.
    - remember (NProto (b_prefix b) (b_data b) (b_links b)) as n eqn:En. assert (Hl : linked w (node_links n)) by (subst n; exact Hd).
      pose proof (add_cgrow n None w Hl) as G. assert (Hl2 : linked (snd (dserv_add n None w)) (node_links (seal n))) by (apply linked_seal; eapply linked_grow; eassumption).
      assert (Hl3 : dok (dEncoded (DBasic b), snd (dserv_add n None w))) by (rewrite En in Hl2 at 2; exact Hl2).
      destruct (dserv_add n None w) as [[[]| | |] w2]; cbn [fst snd] in *; try (split; [exact G|exact Hl3]).
      destruct (NewDirectoryFromNode (seal n)) as [d3| | |] eqn:E; (split; [exact G|]); try exact Hl3. eapply fromnode_ok; eassumption.
    - destruct (Node_cgrow (h_shard h) w Hc Hd) as (G & H). assert (Hs' : sokw (snd (Node (h_shard h) w)) (h_shard h)) by (eapply sokw_grow; eassumption).
      destruct (Node (h_shard h) w) as [[n| | |] w1]; cbn [fst snd] in *; try (split; [exact G|exact Hs']).
      destruct (H n eq_refl) as (Hl & _). pose proof (add_cgrow n None w1 Hl) as G2. assert (G12 : cgrow w (snd (dserv_add n None w1))) by (eapply cgrow_trans; eassumption).
      assert (Hl2 : linked (snd (dserv_add n None w1)) (node_links (seal n))) by (apply linked_seal; exact (linked_grow _ _ _ G2 Hl)).
      assert (Hs2 : sokw (snd (dserv_add n None w1)) (h_shard h)) by exact (sokw_grow _ _ _ G2 Hs').
      destruct (dserv_add n None w1) as [[[]| | |] w2]; cbn [fst snd] in *; try (split; [exact G12|exact Hs2]).
      destruct (NewDirectoryFromNode (seal n)) as [d3| | |] eqn:E; (split; [exact G12|]); try exact Hs2. eapply fromnode_ok; eassumption.
  Qed.

  Lemma dexec_ok mayc T op d w r st' : closed w -> dok (d, w) -> given_dir w op -> dexec hash width mayc T op (d, w) r st' ->
    cgrow w (snd st') /\ dok st'.
  Proof.
    intros Hc Hd Hg. destruct op; cbn [dexec given_dir] in *.
    - intros (r0 & H & _). eapply dAdd_ok; eassumption.
    - intros (r0 & H & _). eapply dRemove_ok; eassumption.
    - unfold dFind. destruct d as [b|h]; [intros (-> & _); split; [apply cgrow_refl|exact Hd]|].
      pose proof (hFind_ok k h w Hc Hd) as H. destruct (hFind hash w k h) as [r0 h1]. intros (-> & _). split; [apply cgrow_refl|exact H].
    - intros (r0 & H & _). inversion H; subst; (split; [apply cgrow_refl|exact Hd]).
    - unfold dEach. destruct d as [b|h]; [destruct (bForEachLink _ _ _) as [r0 acc]; intros (-> & _); split; [apply cgrow_refl|exact Hd]|].
      destruct (each_closed (fun _ _ => None) (h_shard h) w Hc Hd) as (H & _). destruct (ForEachLink w _ _) as [r0 [s acc]].
      intros (-> & _). split; [apply cgrow_refl|exact H].
    - pose proof (dReload_ok d w Hc Hd) as H. destruct (dReload (d, w)) as [r0 st1]. intros (-> & _). exact H.
    - cbn [fst snd]. pose proof (add_cgrow n None w Hg) as G. destruct (dserv_add n None w) as [r0 w1]. intros (-> & _). split; [exact G|].
      unfold dok in *. cbn [fst snd] in *. destruct d; [eapply linked_grow|eapply sokw_grow]; eassumption.
  Qed.
  Lemma drun_closed mayc st cs h st' : drun hash width mayc st cs h st' -> closed (snd st) -> dok st ->
    Forall (fun o => given_dir (q_w o) (q_op o)) h -> cgrow (snd st) (snd st') /\ dok st'.
  Proof.
    induction 1 as [st|T op [d w] r st1 cs h st2 Hx _ IH]; intros Hc Hd Hf; [split; [apply cgrow_refl|exact Hd]|].
    inversion_clear Hf as [|? ? Hg Hf']. cbn [q_w q_op snd] in *. destruct (dexec_ok _ _ _ _ _ _ _ Hc Hd Hg Hx) as (G & H).
    destruct IH as (G2 & H2); [eapply cgrow_closed; eassumption|exact H|exact Hf'|]. split; [eapply cgrow_trans; eassumption|exact H2].
  Qed.
End Hamt.
