(** Changing the CID builder between operations. *)
From Verif Require Import Base Pb PbProofs FSNode FSNodeProofs Dag DagProofs Builder HashBits Bitfield SpecHash HashProofs Hamt SpecHamt HamtExec HamtRep HamtNode HamtRun HamtFacts Walk WalkProofs WalkDir HamtAbs Directory SpecDir DirExec DirBasic DirectoryProofs DirFacts DirLate.

(** *** The builder of the root is not changed by operations *)
Definition kb {A} (m : M shard A) : Prop := forall s, s_builder (snd (m s)) = s_builder s.
Lemma kb_bind {A B} (m : M shard A) (f : A -> M shard B) : kb m -> (forall a, kb (f a)) -> kb (bind m f).
Proof. intros H1 H2 s. unfold bind. specialize (H1 s). destruct (m s) as [[a|e| |] s1]; cbn [snd] in *; auto. rewrite <- H1. apply H2. Qed.
Lemma kb_lift {A} (r : res A) : kb (lift r).
Proof. intros s. reflexivity. Qed.
Lemma kb_ret {A} (a : A) : kb (ret a).
Proof. intros s. reflexivity. Qed.
Lemma kb_throw {A} e : kb (@throw shard A e).
Proof. intros s. reflexivity. Qed.
Lemma kb_get : kb get_shard.
Proof. intros s. reflexivity. Qed.
Lemma kb_upd f : (forall s s', f s = Ok s' -> s_builder s' = s_builder s) -> kb (upd_shard f).
Proof. intros H s. unfold upd_shard. destruct (f s) eqn:E; cbn [snd]; auto. Qed.
Lemma set_child_b x i s : s_builder (set_child x i s) = s_builder s.
Proof. reflexivity. Qed.
Lemma kb_set x i : kb (upd_shard (fun s => Ok (set_child x i s))).
Proof. apply kb_upd. intros s s' [= <-]. reflexivity. Qed.
Lemma kb_child w i : kb (get_child w i).
Proof.
  intros s. unfold get_child. destruct (check s i); auto. destruct (nth_error _ _) as [[l|c]|]; auto. destruct (loadChild w s l); auto.
Qed.
Lemma kb_on {A} i c (m : M shard A) : kb (on_child i c m).
Proof. intros s. unfold on_child. destruct (m c) as [[a|e| |] c']; reflexivity. Qed.
Lemma kb_insert k v i : kb (upd_shard (insert k v i)).
Proof.
  apply kb_upd. intros s s'. unfold insert. destruct v as [l|]; [|discriminate]. destruct (sliceIndex s i) as [j| | |]; try discriminate. cbn [rbind].
  destruct (NewShardValue _ _ _) as [sd| | |]; try discriminate. cbn [rbind]. destruct (zlen (s_slots s) <? j); [discriminate|]. destruct (bf_set _ _); try discriminate. cbn [rbind]. now intros [= <-].
Qed.
Lemma kb_rm i : kb (upd_shard (rm i)).
Proof.
  apply kb_upd. intros s s'. unfold rm. destruct (sliceIndex s i) as [j| | |]; try discriminate. cbn [rbind]. destruct (check s j); try discriminate. cbn [rbind]. destruct (bf_unset _ _); try discriminate. cbn [rbind]. now intros [= <-].
Qed.
Ltac kbs := repeat first [apply kb_lift | apply kb_ret | apply kb_throw | apply kb_get | apply kb_set | apply kb_child | apply kb_on | apply kb_insert | apply kb_rm | apply kb_bind; [|intros ?]].

Section Keep.
  Variable hash : bytes -> bytes.
  Lemma kb_swapValue f w hv k v : kb (swapValue hash f w hv k v).
  Proof.
    destruct f as [|f]; [apply kb_lift|]. cbn [swapValue]. kbs. destruct a0 as [idx hv1]. kbs. destruct (negb a0); kbs. destruct (isValueNode a2).
    - destruct (bytes_eqb _ _); [destruct v; kbs|]. destruct v; kbs. intros s.
      destruct (swapValue hash f w hv1 k _ _) as [[u|e| |] x]; try reflexivity. destruct (swapValue hash f w _ _ _ x) as [[u'|e| |] y]; reflexivity.
    - kbs. destruct a3 as [o c]. destruct v; kbs. destruct (s_slots c) as [|[l|sc] [|y r]]; kbs.
      + destruct a3; kbs.
      + destruct (isValueNode sc); kbs.
  Qed.
  Lemma kb_getValue f w hv k : kb (getValue f w hv k).
  Proof.
    destruct f as [|f]; [apply kb_lift|]. cbn [getValue]. kbs. destruct a0 as [idx hv1]. kbs. destruct a0; kbs. destruct (isValueNode a1); [destruct (bytes_eqb _ _); kbs|]. kbs. destruct a2 as [r ?]. kbs.
  Qed.
  Lemma kb_find w k : kb (Find hash w k).
  Proof. apply kb_getValue. Qed.
  Lemma kb_take w k : kb (Take hash w k).
  Proof. apply kb_swapValue. Qed.
  Lemma kb_setlink w k l : kb (SetLink hash w k l).
  Proof. unfold SetLink. apply kb_bind; [apply kb_get|]. intros a. apply kb_bind; [apply kb_swapValue|]. intros o. apply kb_ret. Qed.
  Lemma kb_setlinks w ls : kb (setLinks hash w ls).
  Proof. induction ls as [|l ls IH]; cbn [setLinks]; [apply kb_ret|]. apply kb_bind; [apply kb_setlink|]. intros _. exact IH. Qed.
  Lemma swap_b k nd s w : s_builder (fst (snd (Swap hash k nd (s, w)))) = s_builder s.
  Proof.
    unfold Swap. destruct (dserv_add nd None w) as [[u|e| |] w1]; try reflexivity.
    match goal with |- context [swapValue hash ?f ?a ?b ?c ?d s] => pose proof (kb_swapValue f a b c d s) as H; destruct (swapValue hash f a b c d s) as [r s1] end. exact H.
  Qed.
  Lemma walk_b f w cb : forall st, s_builder (fst (snd (walkTrie f w cb st))) = s_builder (fst st).
  Proof.
    destruct f as [|f]; intros st; [reflexivity|]. cbn [walkTrie].
    set (each := fix each (n : nat) (i : Z) (st : shard * list link) {struct n} : res unit * (shard * list link) := _).
    generalize (length (s_slots (fst st))) as m. intros m. generalize 0 as i. revert st. induction m as [|m IH]; intros [s acc] i; [reflexivity|].
    cbn [each]. pose proof (kb_child w i s) as H. destruct (get_child w i s) as [[c|e| |] s1]; cbn [fst snd] in *; try exact H.
    destruct (if isValueNode c then s_val c else None) as [v|].
    - destruct (cb acc _); [exact H|]. fold each. rewrite IH. exact H.
    - destruct (walkTrie f w cb (c, acc)) as [[u|e| |] [c' acc']]; try exact H. fold each. rewrite IH. exact H.
  Qed.
  Lemma each_b w cb s acc : s_builder (fst (snd (ForEachLink w cb (s, acc)))) = s_builder s.
  Proof. apply walk_b. Qed.
End Keep.

(** *** The prefix of the root *)
Lemma node_root s w nd w' : Node s w = (Ok nd, w') -> node_prefix nd = proto_prefix (s_builder s).
Proof.
  destruct s as [z b bf k v sl]. cbn [Node]. unfold bind at 1. destruct (lift (set_bits bf 0 (Z.to_nat z)) w) as [[idxs|e| |] w0]; try discriminate.
  unfold bind at 1. match goal with |- context [match ?X with (_, _) => _ end] => destruct X as [[ls|e| |] w1] end; try discriminate.
  unfold bind at 1. destruct (lift _ w1) as [[data|e| |] w2]; try discriminate. unfold bind. destruct (dserv_add _ None w2) as [[u|e| |] w3]; try discriminate. cbn [ret]. intros [= <- <-]. reflexivity.
Qed.
Lemma load_builder nd s : NewHamtFromDag nd = Ok s -> s_builder s = Some (node_prefix nd).
Proof.
  destruct nd as [|p d ls]; [discriminate|]. cbn [NewHamtFromDag node_prefix]. destruct (FSNodeFromBytes d) as [fsn| | |]; try discriminate. cbn [rbind]. destruct (negb _); [discriminate|]. destruct (negb _); [discriminate|].
  destruct (makeShard _ _ _) as [ds| | |]; try discriminate. cbn [rbind]. destruct (bf_setbytes _ _); try discriminate. cbn [rbind]. now intros [= <-].
Qed.

(** *** Sharded directories *)
Section Shards.
  Variables (hash : bytes -> bytes) (n : nat) (W : Z) (P : prefix -> Prop).
  Hypothesis Hn : (2 <= n)%nat.
  Hypothesis Hh : forall k, length (hash k) = n.
  Hypothesis HP : forall p, P p -> p = proto_prefix (Some p).
  Notation good := (good hash n W P).

  Lemma good_late d s w b : good d s w -> P (proto_prefix b) -> good d (SetCidBuilder b s) w.
  Proof.
    intros (lg & U & H1 & H2 & HU & kids & Hr & Hw & Hd) Hb. exists lg, U. split; [assumption|]. split; [assumption|]. split; [exact HU|]. exists kids. split; [|auto].
    cbn [fst snd] in *. destruct Hr as (R1 & R2 & R3 & R4 & R5). destruct s as [z b0 bf ky v sl]. exact (conj R1 (conj R2 (conj Hb (conj R4 R5)))).
  Qed.

  Lemma exec_b op s w r s' w' : hexec hash op (s, w) = (r, (s', w')) -> proto_prefix (s_builder s') = proto_prefix (s_builder s).
  Proof.
    destruct op as [k nd|k l|k nd|k|k|k| | |]; cbn [hexec].
    - unfold Set_, bind. pose proof (swap_b hash k nd s w) as H. destruct (Swap hash k nd (s, w)) as [[o|e| |] [s1 w1]]; cbn [fst snd ret] in *; intros [= <- <- <-]; now rewrite H.
    - pose proof (kb_setlink hash w k l s) as H. destruct (SetLink hash w k l s) as [r0 s1]. cbn [snd] in H. intros [= <- <- <-]. now rewrite H.
    - pose proof (swap_b hash k nd s w) as H. destruct (Swap hash k nd (s, w)) as [r0 [s1 w1]]; cbn [fst snd] in *; intros [= <- <- <-]; now rewrite H.
    - unfold Remove, bind. pose proof (kb_take hash w k s) as H. destruct (Take hash w k s) as [[o|e| |] s1]; cbn [snd ret] in *; intros [= <- <- <-]; now rewrite H.
    - pose proof (kb_take hash w k s) as H. destruct (Take hash w k s) as [r0 s1]; cbn [snd] in *; intros [= <- <- <-]; now rewrite H.
    - pose proof (kb_find hash w k s) as H. destruct (Find hash w k s) as [r0 s1]; cbn [snd] in *; intros [= <- <- <-]; now rewrite H.
    - pose proof (each_b w (fun _ _ => None) s []) as H. destruct (ForEachLink w _ (s, [])) as [r0 [s1 acc]]. cbn [fst snd] in H. intros [= <- <- <-]. now rewrite H.
    - destruct (Node s w) as [r0 w1]. intros [= <- <- <-]. reflexivity.
    - destruct (Node s w) as [[nd|e| |] w1] eqn:E; try (intros [= <- <- <-]; reflexivity).
      destruct (NewHamtFromDag nd) as [s1|e| |] eqn:E1; intros [= <- <- <-]; try reflexivity. rewrite (load_builder _ _ E1), (node_root _ _ _ _ E). apply proto_prefix_idem.
  Qed.

  (** The shards of what Node returns. *)
  Lemma hash_len' k : 8 * zlen (hash k) = 8 * Z.of_nat n.
  Proof. unfold zlen. now rewrite Hh. Qed.
  Lemma ser_shards lg U (Hlg : 3 <= lg <= 10) (HW : Logtwo W = Ok lg) : forall z kids nd c, wfk hash (8 * Z.of_nat n) lg c kids -> ser W P U (Branch kids) nd -> shard_of (length (hexX (W - 1))) nd z ->
    exists kids' c', wfk hash (8 * Z.of_nat n) lg c' kids' /\ ser W P U (Branch kids') z.
  Proof.
    intros z kids nd c Hw Hs H. induction H as [|z l H (kids' & c' & H1 & H2) Hl Hlen]; [eauto|].
    apply (ser_branch lg W P Hlg) in H2 as (p & ls & -> & _ & _ & HF). cbn [node_links] in Hl.
    assert (X : exists y, In y kids' /\ ser_link W P U y l).
    { clear - HF Hl. induction HF as [|y x ks xs Hy HF IH]; [contradiction|]. destruct Hl as [->|Hl]; [exists y; split; [now left|assumption]|]. destruct (IH Hl) as (y' & ? & ?). exists y'. split; [now right|assumption]. }
    destruct X as ([i t] & Hi & Sl). destruct Sl as (N1 & _ & N3). cbn [fst snd] in *.
    pose proof H1 as Hwk. destruct H1 as (_ & _ & HFw). rewrite Forall_forall in HFw. destruct (HFw _ Hi) as [G1 G2]. cbn [snd] in *.
    destruct t as [k v|kk].
    - exfalso. apply G2. pose proof (wfk_range hash (8 * Z.of_nat n) lg W Hlg HW hash_len' c' kids' Hwk) as R. rewrite Forall_map, Forall_forall in R. specialize (R _ Hi). cbn [fst] in R.
      pose proof (proj1 (proj2 (slot_names W i R))) as E. rewrite N1, app_length in Hlen. unfold pad in *. cbn [fst] in *. rewrite E in Hlen. cbn [tkey] in Hlen. destruct k; [reflexivity|cbn in Hlen; lia].
    - apply (wf_branch hash _ lg Hlg) in G2 as [_ G2]. eauto.
  Qed.
  Lemma good_shards d s w nd w' z : good d s w -> Node s w = (Ok nd, w') -> shard_of (length (hexX (W - 1))) nd z -> P (node_prefix z).
  Proof.
    intros (lg & U & H1 & H2 & H3) E Hz. destruct (node_dir hash (8 * Z.of_nat n) lg W P H1 H2 hash_len' U d s w H3) as (kids & Hr & Hw & Hd & r & w1 & E1 & X & Hp). rewrite E in E1. injection E1 as <- <-.
    destruct Hp as [((nd' & En & Hs) & _)|[En _]]; [injection En as <-|discriminate]. destruct (ser_shards lg _ H1 H2 z kids nd 0 Hw Hs Hz) as (kids' & c' & _ & S).
    apply (ser_branch lg W P H1) in S as (p & ls & -> & S & _). exact S.
  Qed.

  Lemma good_exec d s w op r s' w' : good d s w -> hname op <> Some [] -> hexec hash op (s, w) = (r, (s', w')) ->
    wext w w' /\ allowed hash (usable n W) (fails w) d (mkObs op (add_failedb w w') r) /\ good (effect d (mkObs op (add_failedb w w') r)) s' w'.
  Proof.
    intros (lg & U & H1 & H2 & H3) Hk E. destruct (lg_use n W Hn lg H1 H2) as [H5 H6]. pose proof (run_ok hash (8 * Z.of_nat n) lg W P H1 H2 hash_len' HP H5 [op] U d (s, w) (fails w) H3 ltac:(now repeat constructor) (missing_fails U w) ltac:(auto)) as R.
    cbn [hrun] in R. rewrite E in R. cbn [snd] in R. destruct R as ([R1 _] & R2 & _ & V & R3 & _). split; [exact R2|]. split; [rewrite H6; exact R1|]. exists lg, V. auto.
  Qed.

  Lemma late_run ops : forall d s w b h s' w', good d s w -> proto_prefix (s_builder s) = proto_prefix b -> named_bops ops -> Forall (fun b => P (proto_prefix b)) (ball ops) -> blrun hash ops (s, w) = (h, (s', w')) ->
    conforms hash (usable n W) (fails w) d h /\ good (contents d h) s' w' /\ proto_prefix (s_builder s') = proto_prefix (blast b ops).
  Proof.
    induction ops as [|[op|b'] ops IH]; intros d s w b h s' w' G Eb N A R.
    - cbn in R. injection R as <- <- <-. split; [exact I|]. split; [exact G|exact Eb].
    - cbn [blrun] in R. destruct (hexec hash op (s, w)) as [v [s1 w1]] eqn:E1. destruct (blrun hash ops (s1, w1)) as [h1 [s2 w2]] eqn:E2. injection R as <- <- <-.
      inversion N as [|? ? N1 N2]; subst. destruct (good_exec d s w op v s1 w1 G N1 E1) as (X1 & X2 & X3).
      destruct (IH _ _ _ b _ _ _ X3 (eq_trans (exec_b _ _ _ _ _ _ E1) Eb) N2 A E2) as (I1 & I2 & I3).
      split; [split; [exact X2|]|split; [exact I2|exact I3]]. cbn [fst snd]. destruct X1 as (_ & _ & Eg & _). unfold fails in *. rewrite Eg in I1. exact I1.
    - cbn [blrun fst snd] in R. inversion N as [|? ? N1 N2]; subst. cbn [ball flat_map app] in A. inversion A as [|? ? A1 A2]; subst.
      apply (IH d (SetCidBuilder b' s) w b' h s' w'); auto. now apply good_late.
  Qed.
End Shards.

(** One of the builders in a list. *)
Definition among (bs : list (option prefix)) (p : prefix) : Prop := exists b, In b bs /\ p = proto_prefix b.
Lemma among_ok bs p : among bs p -> p = proto_prefix (Some p).
Proof. intros (b & _ & ->). symmetry. apply proto_prefix_idem. Qed.
Lemma among_all bs bs' : (forall b, In b bs -> In b bs') -> Forall (fun b => among bs' (proto_prefix b)) bs.
Proof. intros H. apply Forall_forall. intros b Hb. exists b. auto. Qed.

Lemma shard_late (hash : bytes -> bytes) n W b0 s0 w0 ops h s w : (2 <= n)%nat -> (forall k, length (hash k) = n) -> valid_width W -> new_dir W b0 = Ok s0 -> named_bops ops -> blrun hash ops (s0, w0) = (h, (s, w)) ->
  conforms hash (usable n W) (exists x, w_getok w0 x = false) dempty h /\ proto_prefix (s_builder s) = proto_prefix (blast b0 ops) /\
  forall nd w1, Node s w = (Ok nd, w1) -> node_prefix nd = proto_prefix (blast b0 ops) /\
    forall z, shard_of (length (hexX (W - 1))) nd z -> exists b, In b (b0 :: ball ops) /\ node_prefix z = proto_prefix b.
Proof.
  intros Hn Hh Hv E N R. set (bs := b0 :: ball ops).
  assert (G : good hash n W (among bs) dempty s0 w0) by (apply (good_new hash n W (among bs) Hn Hh b0 s0 w0 Hv); [exists b0; split; [now left|reflexivity]|exact E]).
  assert (Eb : proto_prefix (s_builder s0) = proto_prefix b0) by (clear - E; unfold new_dir in E; destruct (NewShard W) as [x| | |]; cbn [rmap] in E; try discriminate; injection E as <-; destruct x; reflexivity).
  destruct (late_run hash n W (among bs) Hn Hh (among_ok bs) ops dempty s0 w0 b0 h s w G Eb N (among_all (ball ops) bs (fun b Hb => or_intror Hb)) R) as (C1 & C2 & C3).
  split; [exact C1|]. split; [exact C3|]. intros nd w1 En. split; [now rewrite (node_root _ _ _ _ En)|]. intros z Hz. exact (good_shards hash n W (among bs) Hn Hh (among_ok bs) _ s w nd w1 z C2 En Hz).
Qed.

(** *** Dynamic directories *)
Lemma addLinkChild_b k l b : b_prefix (snd (addLinkChild k l b)) = b_prefix b.
Proof.
  unfold addLinkChild, bRemoveChild. destruct (GetNodeLink k (b_links b)); reflexivity.
Qed.
Lemma addLinks_b ls : forall b, b_prefix (snd (addLinks ls b)) = b_prefix b.
Proof.
  induction ls as [|l ls IH]; intros b; [reflexivity|]. cbn [addLinks]. unfold bind. pose proof (addLinkChild_b (lname l) l b) as H. destruct (addLinkChild _ _ _) as [[u|e| |] b1]; cbn [snd] in *; try exact H. now rewrite IH.
Qed.
Section Dyn.
  Variables (hash : bytes -> bytes) (n : nat) (W : Z) (P : prefix -> Prop).
  Hypothesis Hn : (2 <= n)%nat.
  Hypothesis Hh : forall k, length (hash k) = n.
  Hypothesis HP : forall p, P p -> p = proto_prefix (Some p).
  Hypothesis Hv : valid_width W.
  Variable D : bytes.
  Hypothesis HD : FolderPBData = Ok D.
  Notation dgood := (dgood hash n W P D).
  Definition cur (x : directory) : prefix := proto_prefix (dGetCidBuilder x).

  Lemma dgood_late d x w b : dgood d (x, w) -> P (proto_prefix b) -> dgood d (dSetCidBuilder b x, w).
  Proof.
    intros [H1 H2] Hb. split; [exact H1|]. destruct x as [y|h]; cbn [fst snd dSetCidBuilder h_shard] in *; [|now apply good_late]. destruct H2 as [G1 G2 G3 G4]. now constructor.
  Qed.
  Lemma cur_late b x : cur (dSetCidBuilder b x) = proto_prefix b.
  Proof. destruct x as [y|h]; [|reflexivity]. unfold cur. cbn [dSetCidBuilder dGetCidBuilder bSetCidBuilder b_prefix]. apply proto_prefix_idem. Qed.

  Lemma switchToBasic_b w h r h' : switchToBasic w h = (r, h') -> s_builder (h_shard h') = s_builder (h_shard h) /\ forall b, r = Ok b -> b_prefix b = proto_prefix (s_builder (h_shard h)).
  Proof.
    unfold switchToBasic. destruct newEmptyBasicDirectory as [b0| | |]; try (intros [= <- <-]; split; [reflexivity|discriminate]).
    set (cb := switch_cb _). pose proof (each_b w cb (h_shard h) []) as H. destruct (ForEachLink w cb (h_shard h, [])) as [[u|e| |] [s acc]]; cbn [fst snd] in H; intros [= <- <-]; (split; [exact H|]); try discriminate.
    intros b [= <-]. rewrite addLinks_b. reflexivity.
  Qed.
  Lemma needsBasic_b w mayc T k nd h r h' : needsToSwitchToBasicDir hash w mayc T k nd h r h' -> s_builder (h_shard h') = s_builder (h_shard h).
  Proof.
    unfold needsToSwitchToBasicDir. destruct (T =? 0); [now intros [_ ->]|]. pose proof (kb_find hash w k (h_shard h)) as H. destruct (Find hash w k (h_shard h)) as [[[l|]|e| |] s]; cbn [snd] in H; intros X; try (destruct X as [_ ->]; exact H).
    - destruct X as [-> _]. exact H.
    - destruct e; try (destruct X as [_ ->]; exact H). destruct X as [-> _]. exact H.
  Qed.
  Lemma hAdd_b k nd h w : s_builder (h_shard (fst (snd (hAddChild hash k nd (h, w))))) = s_builder (h_shard h).
  Proof. unfold hAddChild. pose proof (swap_b hash k nd (h_shard h) w) as H. destruct (Swap hash k nd (h_shard h, w)) as [[o|e| |] [s w1]]; exact H. Qed.
  Lemma hRemove_b k h w : s_builder (h_shard (snd (hRemoveChild hash w k h))) = s_builder (h_shard h).
  Proof. unfold hRemoveChild. pose proof (kb_take hash w k (h_shard h)) as H. destruct (Take hash w k (h_shard h)) as [[o|e| |] s]; exact H. Qed.
  Lemma switchToSharding_b w b h : switchToSharding hash W w b = Ok h -> s_builder (h_shard h) = Some (b_prefix b).
  Proof.
    unfold switchToSharding, new_dir. destruct (NewShard W) as [s| | |]; try discriminate. cbn [rmap rbind]. pose proof (kb_setlinks hash w (b_links b) (SetCidBuilder (Some (b_prefix b)) s)) as H.
    destruct (setLinks hash w (b_links b) _) as [[u|e| |] s1]; try discriminate. intros [= <-]. exact H.
  Qed.

  Lemma dexec_b mayc T op d x w r st' : dgood d (x, w) -> dexec hash W mayc T op (x, w) r st' -> cur (fst st') = cur x.
  Proof.
    intros [_ G] H. cbn [fst snd] in G. unfold cur. destruct op as [k nd|k|k| | | |nd]; cbn [dexec] in H.
    - destruct H as (r0 & H & _). cbn [dAddChild] in H. destruct x as [b|h].
      + destruct (needsToSwitchToHAMTDir T k (Some nd) b).
        * destruct (switchToSharding hash W w b) as [h|e| |] eqn:E; try (destruct H as [_ ->]; reflexivity).
          pose proof (hAdd_b k nd h w) as Hb. destruct (hAddChild hash k nd (h, w)) as [[u|e| |] [h1 w1]]; destruct H as [_ ->]; try reflexivity. cbn [fst snd dGetCidBuilder] in *. now rewrite Hb, (switchToSharding_b _ _ _ E).
        * pose proof (addLinkChild_b k (make_link [] nd) b) as Hb. unfold bAddChild in H. destruct (addLinkChild k _ b) as [r1 b1]. destruct H as [_ ->]. cbn [fst snd dGetCidBuilder] in *. now rewrite Hb.
      + destruct H as (ra & h1 & H1 & H2). pose proof (needsBasic_b _ _ _ _ _ _ _ _ H1) as B1. destruct ra as [sw|e| |]; try (destruct H2 as [_ ->]; cbn [fst dGetCidBuilder]; now rewrite B1).
        destruct sw.
        * destruct H2 as (rb & h2 & H2 & H3). destruct (switchToBasic_b _ _ _ _ H2) as [B2 B3]. destruct rb as [b|e| |]; try (destruct H3 as [_ ->]; cbn [fst dGetCidBuilder]; now rewrite B2, B1).
          pose proof (addLinkChild_b k (make_link [] nd) b) as Hb. unfold bAddChild in H3. destruct (addLinkChild k _ b) as [[u|e| |] b1]; destruct H3 as [_ ->]; cbn [fst snd dGetCidBuilder] in *; try (now rewrite B2, B1).
          rewrite Hb, (B3 b eq_refl), B1. apply proto_prefix_idem.
        * pose proof (hAdd_b k nd h1 w) as Hb. destruct (hAddChild hash k nd (h1, w)) as [r1 [h2 w1]]. destruct H2 as [_ ->]. cbn [fst snd dGetCidBuilder] in *. now rewrite Hb, B1.
    - destruct H as (r0 & H & _). cbn [dRemoveChild] in H. destruct x as [b|h].
      + unfold bRemoveChild in H. destruct (GetNodeLink k (b_links b)); destruct H as [_ ->]; reflexivity.
      + destruct H as (ra & h1 & H1 & H2). pose proof (needsBasic_b _ _ _ _ _ _ _ _ H1) as B1. destruct ra as [sw|e| |]; try (destruct H2 as [_ ->]; cbn [fst dGetCidBuilder]; now rewrite B1).
        destruct sw.
        * destruct H2 as (rb & h2 & H2 & H3). destruct (switchToBasic_b _ _ _ _ H2) as [B2 B3]. destruct rb as [b|e| |]; try (destruct H3 as [_ ->]; cbn [fst dGetCidBuilder]; now rewrite B2, B1).
          unfold bRemoveChild in H3. destruct (GetNodeLink k (b_links b)); destruct H3 as [_ ->]; cbn [fst snd dGetCidBuilder] in *; try (now rewrite B2, B1).
          cbn. rewrite (B3 b eq_refl), B1. apply proto_prefix_idem.
        * pose proof (hRemove_b k h1 w) as Hb. destruct (hRemoveChild hash w k h1) as [r1 h2]. destruct H2 as [_ ->]. cbn [fst snd dGetCidBuilder] in *. now rewrite Hb, B1.
    - cbn [dFind] in H. destruct x as [b|h]; [destruct H as [-> _]; reflexivity|]. unfold hFind in H. pose proof (kb_find hash w k (h_shard h)) as Hb. destruct (Find hash w k (h_shard h)) as [[[l|]|e| |] s]; destruct H as [-> _]; cbn [fst snd dGetCidBuilder h_shard] in *; now rewrite Hb.
    - destruct H as (r0 & H & _). inversion H; subst; reflexivity.
    - cbn [dEach] in H. destruct x as [b|h].
      + destruct (bForEachLink _ [] (b_links b)) as [r0 acc]. destruct H as [-> _]. reflexivity.
      + pose proof (each_b w (fun _ _ => None) (h_shard h) []) as Hb. destruct (ForEachLink w _ (h_shard h, [])) as [r0 [s acc]]. destruct H as [-> _]. cbn [fst snd dGetCidBuilder h_shard] in *. now rewrite Hb.
    - unfold dReload in H. destruct x as [b|h]; cbn [dGetNode] in H.
      + destruct (dserv_add _ None w) as [[u|e| |] w2]; try (destruct H as [-> _]; reflexivity). destruct (basic_reload P D d b (folder_is_dir D HD) G) as (b' & Eb & _). rewrite Eb in H. destruct H as [-> _].
        cbn [fst dGetCidBuilder]. cbn [seal NewDirectoryFromNode] in Eb. destruct (FSNodeFromBytes (b_data b)) as [fsn| | |]; try discriminate. cbn [rbind] in Eb. destruct (getType fsn =? TDirectory); [|destruct (getType fsn =? THAMTShard); [destruct (NewHamtFromDag _)|]; discriminate]. now injection Eb as <-.
      + destruct (Node (h_shard h) w) as [[nd|e| |] w1] eqn:En; try (destruct H as [-> _]; reflexivity).
        destruct (dserv_add nd None w1) as [[u|e| |] w2]; try (destruct H as [-> _]; reflexivity).
        pose proof (good_node hash n W P Hh HP d (h_shard h) w G) as S. rewrite En in S. destruct S as (_ & _ & _ & Es & p & bb & ls & fsn & s' & -> & Ef & Et & El & _). rewrite Es in H.
        cbn [NewDirectoryFromNode] in H. rewrite Ef in H. cbn [rbind] in H. rewrite Et in H. change (THAMTShard =? TDirectory) with false in H. change (THAMTShard =? THAMTShard) with true in H. cbv iota in H. rewrite El in H. cbn [rmap] in H. destruct H as [-> _].
        cbn [fst dGetCidBuilder h_shard]. rewrite (load_builder _ _ El), (node_root _ _ _ _ En). apply proto_prefix_idem.
    - destruct (dserv_add nd None (snd (x, w))) as [r0 w1]. destruct H as [-> _]. reflexivity.
  Qed.

  Lemma dlate_run mayc ops : forall d x w b h x' w', dgood d (x, w) -> cur x = proto_prefix b -> named_lops ops -> Forall (fun b => P (proto_prefix b)) (lall ops) -> lrun hash W mayc (x, w) ops h (x', w') ->
    Forall (fun o => proper (q_res o)) h /\ (mayc = false -> dconforms unreachable (crowded hash (usable n W)) d h) /\ dgood (dcontents d h) (x', w') /\ cur x' = proto_prefix (llast b ops).
  Proof.
    induction ops as [|[T op|b'] ops IH]; intros d x w b h x' w' G Eb N A R; inversion R; subst.
    - split; [constructor|]. split; [intros _; exact I|]. split; [exact G|exact Eb].
    - match goal with X : dexec _ _ _ _ _ _ _ ?st |- _ => rename X into He; destruct st as [x1 w1] end. inversion N as [|? ? N1 N2]; subst.
      destruct (dexec_ok hash n W P Hn Hh HP Hv D HD mayc T op d x w _ _ G N1 He) as (X1 & X2 & X3 & X4). pose proof (dexec_b mayc T op d x w _ _ G He) as X5. cbn [fst] in X5.
      match goal with X : lrun _ _ _ _ _ _ _ |- _ => destruct (IH _ _ _ b _ _ _ X3 (eq_trans X5 Eb) N2 A X) as (I1 & I2 & I3 & I4) end.
      split; [now constructor|]. split; [intros Em; split; [now apply X4|now apply I2]|]. split; [exact I3|exact I4].
    - inversion N as [|? ? N1 N2]; subst. cbn [lall flat_map app] in A. inversion A as [|? ? A1 A2]; subst.
      apply (IH d (dSetCidBuilder b' x) w b' h x' w'); auto; [now apply dgood_late|apply cur_late].
  Qed.
End Dyn.

Lemma dir_late (hash : bytes -> bytes) n W b0 x0 w0 mayc ops h x w : (2 <= n)%nat -> (forall k, length (hash k) = n) -> valid_width W -> NewDirectory b0 = Ok x0 -> named_lops ops -> lrun hash W mayc (x0, w0) ops h (x, w) ->
  Forall (fun o => q_res o <> Panic /\ q_res o <> Fuel) h /\
  (mayc = false -> dconforms unreachable (crowded hash (usable n W)) dempty h) /\
  proto_prefix (dGetCidBuilder x) = proto_prefix (llast b0 ops) /\
  (forall nd st1, dGetNode (x, w) = (Ok nd, st1) -> node_prefix nd = proto_prefix (llast b0 ops)) /\
  forall s nd w1 z, x = DHamt s -> Node (h_shard s) w = (Ok nd, w1) -> shard_of (length (hexX (W - 1))) nd z -> exists b, In b (b0 :: lall ops) /\ node_prefix z = proto_prefix b.
Proof.
  intros Hn Hh Hv E N R. set (bs := b0 :: lall ops). destruct folder_data as [D HD].
  assert (G : dgood hash n W (among bs) D dempty (x0, w0)).
  { unfold NewDirectory in E. destruct (empty_basic D HD) as (y & Ey & Hy). rewrite Ey in E. injection E as <-. split; [reflexivity|]. apply Hy. exists b0. split; [now left|reflexivity]. }
  assert (Eb : cur x0 = proto_prefix b0) by (unfold NewDirectory in E; destruct newEmptyBasicDirectory; try discriminate; injection E as <-; apply (proto_prefix_idem b0)).
  destruct (dlate_run hash n W (among bs) Hn Hh (among_ok bs) Hv D HD mayc ops dempty x0 w0 b0 h x w G Eb N (among_all (lall ops) bs (fun b Hb => or_intror Hb)) R) as (C0 & C1 & C2 & C3).
  split; [eapply Forall_impl; [|exact C0]; intros o Ho; cbn beta in *; unfold proper in Ho; destruct (q_res o); try contradiction; split; discriminate|].
  split; [exact C1|]. split; [exact C3|]. split.
  - intros nd st1 En. destruct x as [y|s]; cbn [dGetNode] in En.
    + injection En as <- <-. cbn [node_prefix]. destruct C2 as [_ C2]. cbn [fst] in C2. rewrite (among_ok bs _ (bg_prefix _ _ _ _ C2)). exact C3.
    + destruct (Node (h_shard s) w) as [[m|e| |] w1] eqn:Em; try discriminate. injection En as <- <-. now rewrite (node_root _ _ _ _ Em).
  - intros s nd w1 z -> En Hz. destruct C2 as [_ C2]. cbn [fst snd] in C2. exact (good_shards hash n W (among bs) Hn Hh (among_ok bs) _ (h_shard s) w nd w1 z C2 En Hz).
Qed.
