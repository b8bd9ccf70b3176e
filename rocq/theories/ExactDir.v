(** Directories keep the sizes in their links exact. *)
From Coq Require Import Permutation.
From Verif Require Import Base Pb FSNode Dag Builder HashBits Bitfield Hamt SpecHamt HamtExec Walk Directory SpecDir DirExec
  SpecFile SpecStore SpecStoreDir SpecAppend SpecModifier DagProofs DirBasic BuilderProofs ModifierProofs GrowProofs ClosedProofs ClosedDir SizesProofs SpecSizes.

Definition ex (z : Z) (m : node) : Prop := exact_entry (z, m).
Notation exl l := (ex (lsize l) (lto l)).
Notation sokx := (sok ex).
Definition lx (ls : list link) : Prop := forall l, In l ls -> exl l.

Lemma ts_lx n : tsizes_exact n -> lx (node_links n).
Proof. intros H l Hl. pose proof (tsizes_links n H) as F. unfold links_exact in F. rewrite Forall_forall in F. exact (F l Hl). Qed.
Lemma lx_ts n : lx (node_links n) -> tsizes_exact n.
Proof. intros H. apply tsizes_node. apply Forall_forall. intros l Hl. exact (H l Hl). Qed.
Lemma lx_sort ls : lx ls -> lx (lsort ls).
Proof. intros H l Hl. apply H. now apply In_lsort. Qed.
Lemma ts_seal n : tsizes_exact n -> tsizes_exact (seal n).
Proof. intros H. destruct n as [p d|p b ls]; [exact H|]. apply lx_ts. cbn. apply lx_sort. exact (ts_lx _ H). Qed.
Lemma ex_make nm n : tsizes_exact n -> exl (make_link nm n).
Proof.
  intros H. split; cbn [make_link lsize lto fst snd]; [|now apply ts_seal]. rewrite cum_seal. apply node_size_exact, tsizes_links, H.
Qed.
Lemma ex_HP w : forall z m n, ex z m -> dserv_get w m = Ok n -> forall l, In l (node_links n) -> exl l.
Proof. intros z m n (_ & H) E l Hl. pose proof (get_cases w m) as G. rewrite E in G. subst n. exact (ts_lx _ H l Hl). Qed.

Lemma Node_exact s : sokx s -> forall w n w', Node s w = (Ok n, w') -> tsizes_exact n.
Proof.
  revert s. fix IH 1. intros [z b bf k v sl] Hs w n w'. inversion_clear Hs as [? ? ? ? ? ? _ H2 H3]. cbn [Node]. set (pad := length (hexX (z - 1))).
  set (go := fix go (slots : list (slot shard)) (idxs : list Z) {struct slots} : M world (list link) := _).
  assert (G : forall sl, (forall l, In (SLink l) sl -> exl l) -> (forall c, In (SShard c) sl -> sokx c) -> forall idxs w ls w', go sl idxs w = (Ok ls, w') -> lx ls).
  { clear w w' H2 H3 n. fix IHl 1. intros [|x sr] Hl Hsh [|idx ir] w ls w'; cbn [go]; try discriminate; try (intros [= <- _]; intros y []).
    match goal with |- context [bind ?m _ w] => set (one := m) end. rewrite (bind_eq one).
    assert (G1 : forall l w1, one w = (Ok l, w1) -> exl l).
    { unfold one. destruct x as [l|ch].
      - destruct (_ <? _)%nat; cbn; [discriminate|]. intros l0 w1 [= <- _]. cbn. apply Hl. now left.
      - assert (Hch : sokx ch) by (apply Hsh; now left). intros l0 w1. rewrite bind_eq. destruct (if isValueNode ch then s_val ch else None) as [v0|] eqn:Ev.
        + cbn. intros [= <- _]. cbn. destruct (isValueNode ch); [|discriminate]. apply sok_parts in Hch. exact (proj1 Hch v0 Ev).
        + unfold bind. pose proof (IH ch Hch w) as Gb. destruct (Node ch w) as [[nd| | |] w2]; try discriminate. specialize (Gb nd w2 eq_refl).
          destruct (dserv_add nd None w2) as [[[]| | |] w3]; cbn [ret]; try discriminate. intros [= <- _]. exact (ex_make [] nd Gb). }
    destruct (one w) as [[l| | |] w1]; try discriminate. specialize (G1 l w1 eq_refl). rewrite bind_eq.
    pose proof (IHl sr (fun l0 H => Hl l0 (or_intror H)) (fun c0 H => Hsh c0 (or_intror H)) ir w1) as G3.
    destruct (go sr ir w1) as [[r| | |] w2]; cbn [ret]; try discriminate. intros [= <- _]. intros y [<-|Hy]; [exact G1|]. exact (G3 r w2 eq_refl y Hy). }
  rewrite bind_eq. cbn [lift]. destruct (set_bits bf 0 (Z.to_nat z)) as [idxs| | |]; try discriminate.
  specialize (G sl H2 H3 idxs w). rewrite bind_eq. destruct (go sl idxs w) as [[ls| | |] w1]; try discriminate.
  specialize (G ls w1 eq_refl). rewrite bind_eq. cbn [lift]. destruct (HAMTShardData _ _ _) as [data| | |]; try discriminate.
  rewrite bind_eq. destruct (dserv_add _ None w1) as [[[]| | |] w2]; cbn [ret]; try discriminate. intros [= <- _].
  apply (ts_seal (NProto (proto_prefix b) data ls)), lx_ts, G.
Qed.

(** ** Operations on a shard *)

Definition old_ok (o : option link) : Prop := forall l, o = Some l -> exl l.
Lemma old_result o : old_ok o -> exact_result (Ok (VOld (option_map lentry o))).
Proof. intros H. destruct o as [l|]; [|exact Logic.I]. exact (H l eq_refl). Qed.
Lemma list_result ls : lx ls -> exact_result (Ok (VList (map named ls))).
Proof. intros H k e Hk. apply in_map_iff in Hk. destruct Hk as (l & [= _ <-] & Hl). exact (H l Hl). Qed.

Section Hamt.
  Variable hash : bytes -> bytes.

  Lemma swap_exact k n s w : tsizes_exact n -> sokx s ->
    let '(r, (s', _)) := Swap hash k n (s, w) in sokx s' /\ forall o, r = Ok o -> old_ok o.
  Proof.
    intros Hn Hs. unfold Swap. destruct (dserv_add n None w) as [[[]| | |] w1]; try (split; [exact Hs|discriminate]).
    match goal with |- context [swapValue hash ?f w1 ?hv k ?v s] =>
      destruct (kp_swapValue ex w1 (ex_HP w1) hash f hv k v) with (s := s) as (H & H'); [|exact Hs|destruct (swapValue hash f w1 hv k v s) as [r s1]] end.
    - intros l [= <-]. now apply ex_make.
    - split; [exact H|exact H'].
  Qed.
  Lemma take_exact k s w : sokx s -> sokx (snd (Take hash w k s)) /\ forall o, fst (Take hash w k s) = Ok o -> old_ok o.
  Proof. intros Hs. unfold Take. apply (kp_swapValue ex w (ex_HP w)); [discriminate|exact Hs]. Qed.
  Lemma setlink_exact k l s w : exl l -> sokx s -> sokx (snd (SetLink hash w k l s)).
  Proof. intros Hl Hs. apply (kp_SetLink ex w (ex_HP w)); assumption. Qed.
  Lemma find_exact k s w : sokx s -> sokx (snd (Find hash w k s)) /\ forall o, fst (Find hash w k s) = Ok o -> old_ok o.
  Proof. intros Hs. unfold Find. apply (kp_getValue ex w (ex_HP w)). exact Hs. Qed.
  Lemma each_exact cb s w : sokx s -> sokx (fst (snd (ForEachLink w cb (s, [])))) /\ lx (snd (snd (ForEachLink w cb (s, [])))).
  Proof. intros Hs. unfold ForEachLink. apply (walkTrie_sok ex w (ex_HP w)); [exact Hs|intros l []]. Qed.
  Lemma fromdag_exact n s : tsizes_exact n -> NewHamtFromDag n = Ok s -> sokx s.
  Proof. intros H. apply sok_from_dag. exact (ts_lx _ H). Qed.

  Lemma hexec_exact op s w : sokx s -> exact_hop op ->
    sokx (fst (snd (hexec hash op (s, w)))) /\ exact_result (fst (hexec hash op (s, w))).
  Proof.
    intros Hs Hg. destruct op; cbn [hexec exact_hop] in *.
    - unfold Set_. rewrite bind_eq. pose proof (swap_exact k n s w Hg Hs) as H. destruct (Swap hash k n (s, w)) as [[o| | |] [s' w']]; (split; [apply H|exact Logic.I]).
    - pose proof (setlink_exact k l s w Hg Hs) as H. destruct (SetLink hash w k l s) as [[[]| | |] s']; (split; [exact H|exact Logic.I]).
    - pose proof (swap_exact k n s w Hg Hs) as H. destruct (Swap hash k n (s, w)) as [[o| | |] [s' w']]; (split; [apply H|]); try exact Logic.I.
      apply old_result. now apply H.
    - unfold Remove. rewrite bind_eq. pose proof (take_exact k s w Hs) as (H & _). destruct (Take hash w k s) as [[o| | |] s']; (split; [exact H|exact Logic.I]).
    - pose proof (take_exact k s w Hs) as H. destruct (Take hash w k s) as [[o| | |] s']; (split; [apply H|]); try exact Logic.I. apply old_result. now apply H.
    - pose proof (find_exact k s w Hs) as H. destruct (Find hash w k s) as [[[l|]| | |] s']; (split; [apply H|]); try exact Logic.I. now apply (proj2 H (Some l)).
    - destruct (each_exact (fun _ _ => None) s w Hs) as (H & H'). destruct (ForEachLink w _ (s, [])) as [[[]| | |] [s' acc]]; (split; [exact H|]); try exact Logic.I.
      apply list_result. intros l Hl. apply in_rev in Hl. now apply H'.
    - pose proof (Node_exact s Hs w) as H. destruct (Node s w) as [[n| | |] w']; (split; [exact Hs|]); try exact Logic.I. exact (H n w' eq_refl).
    - pose proof (Node_exact s Hs w) as H. destruct (Node s w) as [[n| | |] w']; try (split; [exact Hs|exact Logic.I]). specialize (H n w' eq_refl).
      destruct (NewHamtFromDag n) as [s'| | |] eqn:E; (split; [|exact Logic.I]); try exact Hs. eapply fromdag_exact; eassumption.
  Qed.
  Lemma hrun_exact ops : forall s w, sokx s -> Forall exact_hop ops ->
    sokx (fst (snd (hrun hash ops (s, w)))) /\ Forall (fun o => exact_result (o_res o)) (fst (hrun hash ops (s, w))).
  Proof.
    induction ops as [|op r IH]; intros s w Hs Hg; [split; [exact Hs|constructor]|]. inversion_clear Hg as [|? ? G1 G2]. cbn [hrun].
    destruct (hexec_exact op s w Hs G1) as (H & H'). destruct (hexec hash op (s, w)) as [v [s1 w1]]. cbn [fst snd] in *.
    specialize (IH s1 w1 H G2). destruct (hrun hash r (s1, w1)) as [os sw2]. cbn [fst snd] in *. split; [apply IH|]. constructor; [exact H'|apply IH].
  Qed.
End Hamt.

(** ** The parallel enumeration *)

Section Walk.
  Variable w : world.
  Definition nx (m : node) : Prop := exists z, ex z m.
  Definition jx (j : job) : Prop := (forall m, In m (j_cids j) -> nx m) /\ (forall c, In c (j_shards j) -> sokx c).
  Definition jr (r : res job) : Prop := match r with Ok j => jx j | _ => True end.
  Definition kx (k : cont) : Prop := match k with KShards ss cs => jx (mkJob cs ss) | KFetch t => forall m, In m t -> nx m end.
  Definition wx (x : worker) : Prop :=
    match x with
    | Shards ss cs => jx (mkJob cs ss)
    | Emit ls r k => lx ls /\ jr r /\ kx k
    | Send j k => jx j /\ kx k
    | Visit cs todo => forall m, In m (cs ++ todo) -> nx m
    | Fetch todo => forall m, In m todo -> nx m
    | _ => True
    end.
  Definition ox (o : option job) : Prop := match o with Some j => jx j | None => True end.
  Definition walkx (s : walk) : Prop := Forall wx (w_workers s) /\ ox (w_next s) /\ Forall jx (w_queue s) /\ lx (w_out s).

  Lemma walkSlots_exact ds sl : (forall l, In (SLink l) sl -> exl l) -> (forall c, In (SShard c) sl -> sokx c) ->
    lx (fst (walkSlots ds sl)) /\ jr (snd (walkSlots ds sl)).
  Proof.
    induction sl as [|x r IH]; intros Hl Hc; cbn [walkSlots]; [split; [intros l []|split; [intros m []|intros c []]]|].
    destruct (IH (fun l H => Hl l (or_intror H)) (fun c H => Hc c (or_intror H))) as (I1 & I2). destruct x as [l|c].
    - pose proof (Hl l (or_introl eq_refl)) as Hx. assert (E : lx (fst (@nil link, tt))) by (intros y []). cbn [fst] in E.
      destruct (childLinkType ds l) as [[|]| | |]; try (split; [exact E|exact Logic.I]).
      + destruct (makeShardValue ds l) as [sv| | |]; try (split; [exact E|exact Logic.I]). destruct (walkSlots ds r) as [ls j]. cbn [fst snd] in *.
        split; [|exact I2]. intros y [<-|Hy]; [exact Hx|now apply I1].
      + destruct (walkSlots ds r) as [ls j]. cbn [fst snd] in *. split; [exact I1|]. destruct j as [j| | |]; cbn [rmap jr] in *; try exact Logic.I.
        split; [|apply I2]. intros m [<-|Hm]; [now exists (lsize l)|now apply I2].
    - pose proof (Hc c (or_introl eq_refl)) as Hx. destruct (walkSlots ds r) as [ls j]. cbn [fst snd] in *. destruct (s_val c) as [v|] eqn:Ev.
      + split; [|exact I2]. intros y [<-|Hy]; [|now apply I1]. apply sok_parts in Hx. exact (proj1 Hx v Ev).
      + split; [exact I1|]. destruct j as [j| | |]; cbn [rmap jr] in *; try exact Logic.I. split; [apply I2|]. intros y [<-|Hy]; [exact Hx|now apply I2].
  Qed.
  Lemma walkChildren_exact s : sokx s -> lx (fst (walkChildren s)) /\ jr (snd (walkChildren s)).
  Proof. intros H. apply sok_parts in H. apply walkSlots_exact; apply H. Qed.
  Lemma walkFetched_exact n : nx n -> lx (fst (walkFetched w n)) /\ jr (snd (walkFetched w n)).
  Proof.
    intros (z & Hz). unfold walkFetched. assert (E : lx []) by (intros y []). pose proof (get_cases w n) as G.
    destruct (dserv_get w n) as [nd| | |]; try (split; [exact E|exact Logic.I]). subst nd.
    destruct (NewHamtFromDag n) as [s| | |] eqn:En; try (split; [exact E|exact Logic.I]). apply walkChildren_exact. eapply fromdag_exact; [apply Hz|exact En].
  Qed.
  Lemma wx_upd a x x' b : (wx x -> wx x') -> Forall wx (a ++ x :: b) -> Forall wx (a ++ x' :: b).
  Proof. intros H F. apply Forall_app in F. destruct F as (F1 & F2). inversion_clear F2. apply Forall_app. split; [exact F1|]. constructor; auto. Qed.
  Lemma wx_at a x b : Forall wx (a ++ x :: b) -> wx x.
  Proof. intros F. apply Forall_app in F. destruct F as (_ & F2). now inversion_clear F2. Qed.
  Lemma wstep_exact mayc s t : wstep w mayc s t -> walkx s -> walkx t.
  Proof.
    destruct 1; intros (H1 & H2 & H3 & H4); cbn [w_workers w_next w_queue w_out] in *.
    all: try (split; [|split; [|split]]; cbn [w_workers w_next w_queue w_out]; try assumption; eapply wx_upd; [|exact H1]; cbn [wx]; try exact (fun h => h); try exact (fun _ => Logic.I)).
    - split; [|split; [|split]]; cbn [w_workers w_next w_queue w_out]; try assumption.
      + eapply wx_upd; [|exact H1]. intros _. exact H2.
      + destruct q as [|j0 q0]; cbn; [exact Logic.I|]. now inversion_clear H3.
      + destruct q as [|j0 q0]; cbn; [constructor|]. now inversion_clear H3.
    - intros (J1 & J2). cbn [j_cids j_shards] in *. destruct (walkChildren_exact s (J2 s (or_introl eq_refl))) as (K1 & K2).
      split; [exact K1|]. split; [exact K2|]. split; [exact J1|]. cbn. intros c0 Hc0. apply J2. now right.
    - intros (J1 & _) m Hm. rewrite app_nil_r in Hm. exact (J1 m Hm).
    - split; [|split; [|split]]; cbn [w_workers w_next w_queue w_out]; try assumption.
      + eapply wx_upd; [|exact H1]. cbn. intros (L1 & L2). split; [|exact L2]. intros y Hy. apply L1. now right.
      + intros y Hy. apply in_app_iff in Hy. destruct Hy as [Hy|[<-|[]]]; [now apply H4|]. apply wx_at in H1. apply (proj1 H1). now left.
    - intros (L1 & L2). split; [|exact L2]. intros y Hy. apply L1. now right.
    - intros (_ & L2 & L3). split; assumption.
    - assert (Hw := wx_at _ _ _ H1). destruct Hw as (Hj & Hk). split; [|split; [|split]]; cbn [w_workers w_next w_queue w_out]; try assumption.
      + eapply wx_upd; [|exact H1]. intros _. destruct k; exact Hk.
      + destruct nx0; cbn; assumption.
      + destruct nx0; cbn; [|assumption]. apply Forall_app. split; [exact H3|]. constructor; [exact Hj|constructor].
    - intros L m Hm. apply L. rewrite !in_app_iff in *. cbn in *. tauto.
    - intros L m Hm. apply L. now right.
    - intros L. destruct (walkFetched_exact n) as (K1 & K2); [apply L; apply in_or_app; right; now left|]. split; [exact K1|]. split; [exact K2|].
      cbn. intros m Hm. apply L. rewrite in_app_iff in *. cbn. tauto.
    - split; [exact H1|]. split; [exact H2|]. split; assumption.
    - split; [exact H1|]. split; [exact H2|]. split; assumption.
  Qed.
  Lemma enum_exact mayc n s t links e : sokx s -> wsteps w mayc (walk_start n s) t -> enum_returns t links e -> lx links.
  Proof.
    intros Hs Hw (_ & -> & _). assert (W : walkx t); [|apply W].
    remember (walk_start n s) as s0 eqn:E. induction Hw as [|? ? ? _ IH Hst]; [|eapply wstep_exact; [exact Hst|now apply IH]]. subst.
    split; [|split; [|split]]; cbn.
    - apply Forall_forall. intros x Hx. apply repeat_spec in Hx. subst. exact Logic.I.
    - split; [intros m []|]. intros c [<-|[]]. exact Hs.
    - constructor.
    - intros l [].
  Qed.
End Walk.

(** ** Directories *)

Definition dx (d : directory) : Prop := match d with DBasic b => lx (b_links b) | DHamt h => sokx (h_shard h) end.

Lemma bRemove_lx k b : lx (b_links b) -> lx (b_links (snd (bRemoveChild k b))).
Proof.
  intros H. unfold bRemoveChild. destruct (GetNodeLink k (b_links b)); [|exact H]. cbn. intros x Hx. apply filter_In in Hx. now apply H.
Qed.
Lemma addLink_lx k l b : lx (b_links b) -> exl l -> lx (b_links (snd (addLinkChild k l b))).
Proof.
  intros H Hl. unfold addLinkChild. pose proof (bRemove_lx k b H) as Hr. destruct (bRemoveChild k b) as [r d1]. cbn [snd] in Hr.
  assert (G : lx (b_links (addToEstimatedSize k (lto l) (b_set_links (AddRawLink k l (b_links d1)) d1)))).
  { cbn. intros x Hx. apply in_app_iff in Hx. destruct Hx as [Hx|[<-|[]]]; [now apply Hr|exact Hl]. }
  destruct r as [[]|e| |]; try exact Hr; [exact G|]. destruct e; try exact Hr. exact G.
Qed.
Lemma addLinks_lx ls : lx ls -> forall b, lx (b_links b) -> lx (b_links (snd (addLinks ls b))).
Proof.
  induction ls as [|l r IH]; intros Hls b Hb; [exact Hb|]. cbn [addLinks]. rewrite bind_eq.
  pose proof (addLink_lx (lname l) l b Hb (Hls l (or_introl eq_refl))) as H. destruct (addLinkChild (lname l) l b) as [[[]| | |] b1]; try exact H.
  apply IH; [|exact H]. intros x Hx. apply Hls. now right.
Qed.

Section Dir.
  Variables (hash : bytes -> bytes) (width : Z).
  Lemma sharding_exact w b h : lx (b_links b) -> switchToSharding hash width w b = Ok h -> sokx (h_shard h).
  Proof.
    intros Hb. unfold switchToSharding, new_dir, NewShard. destruct (NewShardValue width [] None) as [s0| | |] eqn:E; cbn [rmap rbind]; try discriminate.
    assert (Hs : sokx (SetCidBuilder (Some (b_prefix b)) s0)) by (apply sok_builder; eapply sok_new; [|exact E]; discriminate).
    destruct (kp_setLinks ex w (ex_HP w) hash (b_links b) Hb _ Hs) as (H & _).
    destruct (setLinks hash w (b_links b) _) as [[[]| | |] s1]; try discriminate. now intros [= <-].
  Qed.
  Lemma basic_exact w h : sokx (h_shard h) ->
    sokx (h_shard (snd (switchToBasic w h))) /\ forall b, fst (switchToBasic w h) = Ok b -> lx (b_links b).
  Proof.
    intros Hs. unfold switchToBasic, newEmptyBasicDirectory. destruct FolderPBData as [d| | |]; cbn [rmap rbind]; try (split; [exact Hs|discriminate]).
    set (b0 := bSetCidBuilder _ _). destruct (each_exact (switch_cb b0) (h_shard h) w Hs) as (H1 & H2).
    destruct (ForEachLink w _ _) as [[[]| | |] [s acc]]; cbn [fst snd] in *; (split; [exact H1|]); try discriminate.
    intros b [= <-]. apply addLinks_lx; [|intros x []]. intros x Hx. apply in_rev in Hx. now apply H2.
  Qed.
  Lemma hAdd_exact k n h w : tsizes_exact n -> sokx (h_shard h) -> let '(_, (h', _)) := hAddChild hash k n (h, w) in sokx (h_shard h').
  Proof.
    intros Hn Hs. unfold hAddChild. pose proof (swap_exact hash k n (h_shard h) w Hn Hs) as H.
    destruct (Swap hash k n (h_shard h, w)) as [[o| | |] [s' w']]; apply H.
  Qed.
  Lemma hRemove_exact k h w : sokx (h_shard h) -> sokx (h_shard (snd (hRemoveChild hash w k h))).
  Proof.
    intros Hs. unfold hRemoveChild. pose proof (take_exact hash k (h_shard h) w Hs) as (H & _). destruct (Take hash w k (h_shard h)) as [[o| | |] s']; exact H.
  Qed.
  Lemma needs_exact mayc T k n h r h' w : sokx (h_shard h) -> needsToSwitchToBasicDir hash w mayc T k n h r h' -> sokx (h_shard h').
  Proof.
    intros Hs. unfold needsToSwitchToBasicDir. destruct (T =? 0); [intros (_ & ->); exact Hs|].
    pose proof (find_exact hash k (h_shard h) w Hs) as (H & _). destruct (Find hash w k (h_shard h)) as [[[l|]|e| |] s']; cbn [snd] in H;
      try (intros (-> & _); exact H); try (intros (_ & ->); exact H).
    destruct e; try (intros (-> & _); exact H); intros (_ & ->); exact H.
  Qed.
  Lemma dAdd_exact mayc T k n d w r st' : dx d -> tsizes_exact n -> dAddChild hash width mayc T k n (d, w) r st' -> dx (fst st').
  Proof.
    intros Hd Hn. unfold dAddChild. destruct d as [b|h]; cbn [dx] in Hd.
    - destruct (needsToSwitchToHAMTDir T k (Some n) b).
      + destruct (switchToSharding hash width w b) as [h| | |] eqn:E; try (intros (_ & ->); exact Hd).
        pose proof (hAdd_exact k n h w Hn (sharding_exact w b h Hd E)) as H.
        destruct (hAddChild hash k n (h, w)) as [[[]| | |] [h1 w1]]; intros (_ & ->); first [exact H|exact Hd].
      + pose proof (addLink_lx k (make_link [] n) b Hd (ex_make [] n Hn)) as H. unfold bAddChild.
        destruct (addLinkChild k (make_link [] n) b) as [r1 b1]. intros (_ & ->). exact H.
    - intros (ra & h1 & Hn1 & K). pose proof (needs_exact _ _ _ _ _ _ _ w Hd Hn1) as H1.
      destruct ra as [[|]| | |]; try (destruct K as (_ & ->); exact H1).
      + destruct K as (rb & h2 & Hb & K). unfold det in Hb. destruct (basic_exact w h1 H1) as (H2 & H3). rewrite Hb in H2, H3. cbn [fst snd] in *.
        destruct rb as [b| | |]; try (destruct K as (_ & ->); exact H2). specialize (H3 b eq_refl).
        pose proof (addLink_lx k (make_link [] n) b H3 (ex_make [] n Hn)) as H4. unfold bAddChild in K.
        destruct (addLinkChild k (make_link [] n) b) as [[[]| | |] b1]; destruct K as (_ & ->); try exact H2. exact H4.
      + pose proof (hAdd_exact k n h1 w Hn H1) as H. destruct (hAddChild hash k n (h1, w)) as [r1 [h2 w1]]. destruct K as (_ & ->). exact H.
  Qed.
  Lemma dRemove_exact mayc T k d w r st' : dx d -> dRemoveChild hash mayc T k (d, w) r st' -> dx (fst st').
  Proof.
    intros Hd. unfold dRemoveChild. destruct d as [b|h]; cbn [dx] in Hd.
    - pose proof (bRemove_lx k b Hd) as H. destruct (bRemoveChild k b) as [r1 b1]. intros (_ & ->). exact H.
    - intros (ra & h1 & Hn1 & K). pose proof (needs_exact _ _ _ _ _ _ _ w Hd Hn1) as H1.
      destruct ra as [[|]| | |]; try (destruct K as (_ & ->); exact H1).
      + destruct K as (rb & h2 & Hb & K). unfold det in Hb. destruct (basic_exact w h1 H1) as (H2 & H3). rewrite Hb in H2, H3. cbn [fst snd] in *.
        destruct rb as [b| | |]; try (destruct K as (_ & ->); exact H2). specialize (H3 b eq_refl).
        pose proof (bRemove_lx k b H3) as H4. destruct (bRemoveChild k b) as [[[]| | |] b1]; destruct K as (_ & ->); try exact H2. exact H4.
      + pose proof (hRemove_exact k h1 w H1) as H. destruct (hRemoveChild hash w k h1) as [r1 h2]. destruct K as (_ & ->). exact H.
  Qed.
  Lemma fromnode_exact n d : tsizes_exact n -> NewDirectoryFromNode n = Ok d -> dx d.
  Proof.
    destruct n as [|p b ls]; [discriminate|]. intros H. unfold NewDirectoryFromNode. destruct (FSNodeFromBytes b) as [f| | |]; cbn [rbind]; try discriminate.
    destruct (_ =? _); [intros [= <-]; exact (ts_lx _ H)|]. destruct (_ =? _); [|discriminate]. destruct (NewHamtFromDag (NProto p b ls)) as [s| | |] eqn:E; cbn [rmap rbind]; try discriminate.
    intros [= <-]. cbn. exact (fromdag_exact (NProto p b ls) s H E).
  Qed.
  Lemma getnode_exact d w n st' : dx d -> dGetNode (d, w) = (Ok n, st') -> tsizes_exact n.
  Proof.
    intros Hd. unfold dGetNode. destruct d as [b|h]; cbn [dx] in Hd.
    - intros [= <- _]. apply lx_ts. exact Hd.
    - pose proof (Node_exact (h_shard h) Hd w) as H. destruct (Node (h_shard h) w) as [r w1]. intros [= -> _]. exact (H n w1 eq_refl).
  Qed.
  Lemma dEncoded_exact d : dx d -> dx (dEncoded d).
  Proof. destruct d as [b|h]; cbn; [apply lx_sort|auto]. Qed.
  Lemma dReload_exact d w : dx d -> dx (fst (snd (dReload (d, w)))).
  Proof.
    intros Hd. unfold dReload. pose proof (getnode_exact d w) as G.
    assert (Hs : fst (snd (dGetNode (d, w))) = d) by (unfold dGetNode; destruct d as [b|h]; [reflexivity|now destruct (Node (h_shard h) w)]).
    destruct (dGetNode (d, w)) as [[n| | |] [d1 w1]]; cbn [fst snd] in *; subst d1; try exact Hd. specialize (G n (d, w1) Hd eq_refl).
    pose proof (dEncoded_exact d Hd) as He. destruct (dserv_add n None w1) as [[[]| | |] w2]; try exact He.
    destruct (NewDirectoryFromNode (seal n)) as [d3| | |] eqn:E; try exact He. exact (fromnode_exact (seal n) d3 (ts_seal n G) E).
  Qed.
  Lemma get_result w l : exl l -> exact_result (rmap VNode (dserv_get w (lto l))).
  Proof.
    intros (_ & H). pose proof (get_cases w (lto l)) as G. destruct (dserv_get w (lto l)) as [n| | |]; try exact Logic.I. subst n. exact H.
  Qed.
  Lemma dFind_exact k d w : dx d -> dx (fst (snd (dFind hash k (d, w)))) /\ exact_result (rmap VNode (fst (dFind hash k (d, w)))).
  Proof.
    intros Hd. unfold dFind. destruct d as [b|h]; cbn [dx] in Hd.
    - split; [exact Hd|]. unfold bFind. cbn [fst]. destruct (GetNodeLink k (b_links b)) as [l|] eqn:E; [|exact Logic.I].
      apply get_result. apply find_some in E. exact (Hd l (proj1 E)).
    - unfold hFind. pose proof (find_exact hash k (h_shard h) w Hd) as (H & H'). destruct (Find hash w k (h_shard h)) as [[[l|]| | |] s']; cbn [fst snd] in *;
        (split; [exact H|]); try exact Logic.I. apply get_result. exact (H' (Some l) eq_refl l eq_refl).
  Qed.
  Lemma bEach_lx cb ls : forall acc, lx ls -> lx acc -> lx (snd (bForEachLink cb acc ls)).
  Proof.
    induction ls as [|l r IH]; intros acc Hl Ha; cbn [bForEachLink]; [exact Ha|].
    assert (Ha' : lx (l :: acc)) by (intros x [<-|Hx]; [apply Hl; now left|now apply Ha]). destruct (cb acc l); [exact Ha'|]. apply IH; [|exact Ha'].
    intros x Hx. apply Hl. now right.
  Qed.
  Lemma dexec_exact mayc T op d w r st' : dx d -> exact_dop op -> dexec hash width mayc T op (d, w) r st' -> dx (fst st') /\ exact_result r.
  Proof.
    intros Hd Hg. destruct op; cbn [dexec exact_dop] in *.
    - intros (r0 & H & ->). split; [eapply dAdd_exact; eassumption|]. now destruct r0.
    - intros (r0 & H & ->). split; [eapply dRemove_exact; eassumption|]. now destruct r0.
    - pose proof (dFind_exact k d w Hd) as H. destruct (dFind hash k (d, w)) as [r0 st1]. intros (-> & ->). exact H.
    - intros (r0 & H & ->). inversion H; subst; (split; [exact Hd|]); try exact Logic.I; apply list_result; [exact Hd|].
      eapply enum_exact; [|eassumption|eassumption]. exact Hd.
    - unfold dEach. destruct d as [b|h].
      + pose proof (bEach_lx (fun _ _ => None) (b_links b) [] Hd (fun x (F : In x []) => match F with end)) as H.
        destruct (bForEachLink _ _ _) as [r0 acc]. intros (-> & ->). split; [exact Hd|]. destruct r0; try exact Logic.I. apply list_result.
        intros l Hl. apply in_rev in Hl. now apply H.
      + destruct (each_exact (fun _ _ => None) (h_shard h) w Hd) as (H & H'). destruct (ForEachLink w _ _) as [r0 [s acc]].
        intros (-> & ->). split; [exact H|]. destruct r0; try exact Logic.I. apply list_result. intros l Hl. apply in_rev in Hl. now apply H'.
    - pose proof (dReload_exact d w Hd) as H. destruct (dReload (d, w)) as [r0 st1]. intros (-> & ->). split; [exact H|]. now destruct r0.
    - cbn [fst snd]. destruct (dserv_add n None w) as [r0 w1]. intros (-> & ->). split; [exact Hd|]. now destruct r0.
  Qed.
  Lemma drun_exact mayc st cs h st' : drun hash width mayc st cs h st' -> dx (fst st) ->
    Forall (fun o => exact_dop (q_op o)) h -> dx (fst st') /\ Forall (fun o => exact_result (q_res o)) h.
  Proof.
    induction 1 as [st|T op [d w] r st1 cs h st2 Hx _ IH]; intros Hd Hf; [split; [exact Hd|constructor]|].
    inversion_clear Hf as [|? ? Hg Hf']. cbn [q_op] in Hg. destruct (dexec_exact _ _ _ _ _ _ _ Hd Hg Hx) as (H & Hr).
    destruct (IH H Hf') as (H2 & H3). split; [exact H2|]. constructor; [exact Hr|exact H3].
  Qed.
End Dir.

(** ** The statements *)

Lemma shard_start W b s : new_dir W b = Ok s \/ (exists m, NewHamtFromDag m = Ok s /\ tsizes_exact m) -> sokx s.
Proof.
  intros [H|(m & H & Hm)]; [|exact (fromdag_exact m s Hm H)]. unfold new_dir, NewShard in H.
  destruct (NewShardValue W [] None) as [s0| | |] eqn:E; cbn [rmap rbind] in H; try discriminate. injection H as <-.
  apply sok_builder. eapply sok_new; [|exact E]. discriminate.
Qed.
Lemma shard_sizes hash W b s w ops : new_dir W b = Ok s \/ (exists m, NewHamtFromDag m = Ok s /\ tsizes_exact m) ->
  Forall exact_hop ops ->
  Forall (fun o => exact_result (o_res o)) (fst (hrun hash ops (s, w))) /\
  forall w1 n w2, Node (fst (snd (hrun hash ops (s, w)))) w1 = (Ok n, w2) -> tsizes_exact n.
Proof.
  intros Hs Hf. destruct (hrun_exact hash ops s w (shard_start _ _ _ Hs) Hf) as (H1 & H2). split; [exact H2|].
  intros w1 n w2. exact (Node_exact _ H1 w1 n w2).
Qed.
Lemma directory_sizes hash width mayc d w cs h st : 
  (exists b, NewDirectory b = Ok d) \/ (exists m, NewDirectoryFromNode m = Ok d /\ tsizes_exact m) ->
  drun hash width mayc (d, w) cs h st -> Forall (fun o => exact_dop (q_op o)) h ->
  Forall (fun o => exact_result (q_res o)) h /\
  forall w1 n st2, dGetNode (fst st, w1) = (Ok n, st2) -> tsizes_exact n.
Proof.
  intros Hd Hr Hf. assert (H : dx d).
  { destruct Hd as [(b & H)|(m & H & Hm)]; [|exact (fromnode_exact m d Hm H)]. unfold NewDirectory, newEmptyBasicDirectory in H.
    destruct FolderPBData as [x| | |]; cbn [rmap rbind] in H; try discriminate. injection H as <-. intros l []. }
  destruct (drun_exact hash width mayc _ _ _ _ Hr H Hf) as (H1 & H2). split; [exact H2|]. intros w1 n st2. now apply getnode_exact.
Qed.
Lemma directory_size hash width mayc d w cs h st w1 n st2 : 
  (exists b, NewDirectory b = Ok d) \/ (exists m, NewDirectoryFromNode m = Ok d /\ tsizes_exact m) ->
  drun hash width mayc (d, w) cs h st -> Forall (fun o => exact_dop (q_op o)) h ->
  dGetNode (fst st, w1) = (Ok n, st2) -> node_size n = mod64 (cumulative n).
Proof.
  intros Hd Hr Hf E. apply node_size_exact, tsizes_links. eapply (directory_sizes hash width mayc d w cs h st); eassumption.
Qed.
