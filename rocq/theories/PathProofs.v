(** Which blocks the operations of a sharded directory fetch. *)
From Coq Require Import Sorting.Sorted Sorting.Permutation.
From Verif Require Import Base Pb PbProofs FSNode FSNodeProofs Dag DagProofs Builder HashBits Bitfield SpecHash HashProofs Hamt SpecHamt HamtExec HamtRep HamtNode HamtRun HamtFacts SpecPath.

(** ** Slot names *)

Lemma hexdigit_value d : 0 <= d < 16 -> digit_value (hexdigit d) = Some d.
Proof.
  intros H. unfold digit_value, hexdigit. destruct (d <? 10) eqn:E; rewrite b2z_z2b, Z.mod_small by lia.
  - replace ((48 <=? 48 + d) && (48 + d <=? 57)) with true by lia. f_equal. lia.
  - replace ((48 <=? 55 + d) && (55 + d <=? 57)) with false by lia. replace ((65 <=? 55 + d) && (55 + d <=? 70)) with true by lia. f_equal. lia.
Qed.
Lemma hex_value_app a : forall b acc, hex_value acc (a ++ b) = match hex_value acc a with Some x => hex_value x b | None => None end.
Proof. induction a as [|x a IH]; intros b acc; cbn; [reflexivity|]. destruct (digit_value x); [apply IH|reflexivity]. Qed.
Lemma hexn_value n : forall z, 0 <= z < 16 ^ Z.of_nat n -> hex_value 0 (hexn n z) = Some z.
Proof.
  induction n as [|n IH]; intros z Hz; [change (16 ^ Z.of_nat 0) with 1 in Hz; cbn; f_equal; lia|]. rewrite pow16_S in Hz. cbn [hexn]. rewrite hex_value_app, IH by lia.
  cbn [hex_value]. rewrite hexdigit_value by lia. f_equal. lia.
Qed.
Lemma hexpad_value W i : 0 <= i < W -> hex_value 0 (hexpad (pad W) i) = Some i.
Proof.
  intros H. unfold pad. destruct (hexX_len (W - 1) ltac:(lia)) as [H1 H2]. destruct (length (hexX (W - 1))) as [|n]; [lia|]. rewrite hexpad_hexn by lia. apply hexn_value. lia.
Qed.
Lemma pad_digits lg W : 3 <= lg <= 10 -> Logtwo W = Ok lg -> pad W = slot_digits W /\ Z.log2 W = lg.
Proof.
  intros H1 H2. apply Logtwo_ok in H2 as [_ ->]. assert (lg = 3 \/ lg = 4 \/ lg = 5 \/ lg = 6 \/ lg = 7 \/ lg = 8 \/ lg = 9 \/ lg = 10) as [->|[->|[->|[->|[->|[->|[->| ->]]]]]]] by lia; split; reflexivity.
Qed.

Section Path.
  Variables (hash : bytes -> bytes) (L lg W : Z) (P : prefix -> Prop).
  Hypothesis Hlg : 3 <= lg <= 10.
  Hypothesis HW : Logtwo W = Ok lg.
  Hypothesis Hhash : forall k, 8 * zlen (hash k) = L.
  Hypothesis HP : forall p, P p -> p = proto_prefix (Some p).
  Notation wf := (wf hash L lg).
  Notation wfk := (wfk hash L lg).
  Notation ser := (ser W P).
  Notation rep := (rep W P).
  Notation reps := (reps W P).
  Notation slot_of := (slot_of hash lg).
  Notation pad := (pad W).
  Notation onp := (on_path hash W).

  (** ** A stored shard has one trie and one depth *)

  Lemma tkey_wf c t : wf c t -> tkey t = [] -> exists kids, t = Branch kids.
  Proof. destruct t as [k v|kids]; [|eauto]. cbn. congruence. Qed.

  Lemma ser_inj (U V : node -> Prop) t : forall t' c c' nd, wf c t -> wf c' t' -> tkey t = tkey t' -> (forall k v k' v', t = Leaf k v -> t' = Leaf k' v' -> fst v = fst v') ->
    ser U t nd -> ser V t' nd -> t = t'.
  Proof.
    induction t as [k v|kids IH] using trie_ind'; intros t' c c' nd Hw Hw' Ht Hf Hs Hs'.
    - destruct t' as [k' v'|kids']; [|cbn in Ht, Hw; congruence]. cbn [tkey] in Ht. subst k'. specialize (Hf _ _ _ _ eq_refl eq_refl). cbn [HamtRep.ser] in Hs, Hs'. f_equal. destruct v, v'. cbn in *. congruence.
    - destruct t' as [k' v'|kids']; [cbn in Ht, Hw'; congruence|]. f_equal. apply (wf_branch hash L lg Hlg) in Hw as [_ Hw]. apply (wf_branch hash L lg Hlg) in Hw' as [_ Hw'].
      apply (ser_branch lg W P Hlg) in Hs as (p & ls & -> & _ & _ & Hs). apply (ser_branch lg W P Hlg) in Hs' as (p' & ls' & E & _ & _ & Hs'). injection E as -> _ <-.
      pose proof (wfk_range hash L lg W Hlg HW Hhash _ _ Hw) as R. pose proof (wfk_range hash L lg W Hlg HW Hhash _ _ Hw') as R'. destruct Hw as (_ & _ & Hw). destruct Hw' as (_ & _ & Hw').
      clear Ht Hf p'. revert kids' Hs' Hw' R'. induction Hs as [|y l ks ls (A1 & A2 & A3) Hs IH2]; intros kids' Hs' Hw' R'; inversion Hs' as [|y' ? ks' ? (B1 & B2 & B3) Hs2]; subst; [reflexivity|].
      inversion IH as [|? ? I1 I2]; subst. inversion Hw as [|? ? [_ W1] W2]; subst. inversion Hw' as [|? ? [_ W1'] W2']; subst. cbn [map] in R, R'. inversion R as [|? ? R1 R2]; subst. inversion R' as [|? ? R1' R2']; subst.
      f_equal; [|now apply IH2]. destruct y as [i t], y' as [i' t']. cbn [fst snd] in *. rewrite A1 in B1. destruct (slot_names W i R1) as (_ & N1 & _). destruct (slot_names W i' R1') as (_ & N1' & _).
      apply bits_value_app_inj in B1 as [B1 B1']; [|unfold HamtRep.pad; congruence].
      assert (i = i'). { pose proof (hexpad_value W i R1) as V1. pose proof (hexpad_value W i' R1') as V2. rewrite B1 in V1. congruence. }
      subst i'. f_equal. apply (I1 t' (c + lg) (c' + lg) (lto l)); auto. intros k v k' v' -> ->. cbn [snd] in *. congruence.
  Qed.

  (** Two names with the same slots from bit [c] to bit [c']. *)
  Definition shares (c c' : Z) (k k' : bytes) : Prop := forall j, 0 <= j -> c + (j + 1) * lg <= c' -> slot_of k (c + j * lg) = slot_of k' (c + j * lg).
  Lemma shares_nil c k k' : shares c c k k'.
  Proof. intros j H1 H2. nia. Qed.
  Lemma shares_step c c' k k' : slot_of k c = slot_of k' c -> shares (c + lg) c' k k' -> shares c c' k k'.
  Proof.
    intros E H j H1 H2. destruct (Z.eq_dec j 0) as [->|]; [now replace (c + 0 * lg) with c by lia|].
    specialize (H (j - 1) ltac:(lia)). replace (c + lg + (j - 1 + 1) * lg) with (c + (j + 1) * lg) in H by lia. replace (c + lg + (j - 1) * lg) with (c + j * lg) in H by lia. auto.
  Qed.
  Lemma shares_snoc c k k' : 0 <= c -> (lg | c) -> shares 0 c k k' -> slot_of k c = slot_of k' c -> shares 0 (c + lg) k k'.
  Proof.
    intros Hc [q ->] H E j H1 H2. destruct (Z.eq_dec j q) as [->|]; [now rewrite Z.add_0_l|]. apply H; [assumption|]. nia.
  Qed.
  Lemma shares_sym c c' k k' : shares c c' k k' -> shares c c' k' k.
  Proof. intros H j H1 H2. symmetry. now apply H. Qed.
  Lemma shares_trans c c' a b d : shares c c' a b -> shares c c' b d -> shares c c' a d.
  Proof. intros H G j H1 H2. rewrite H, G; auto. Qed.

  Lemma keysk_key k kids i t : In (i, t) kids -> In k (keys t) -> In k (keysk kids).
  Proof. intros H Hk. unfold keysk, entriesk, keys in *. apply in_map_iff in Hk as (e & <- & He). apply in_map. apply in_flat_map. exists (i, t). auto. Qed.

  Lemma depth_unique t : forall c c', wf c t -> wf c' t -> (2 <= length (entries t))%nat -> 0 <= c -> 0 <= c' -> (lg | c) -> (lg | c') ->
    (forall k k', In k (keys t) -> In k' (keys t) -> shares 0 c k k') -> (forall k k', In k (keys t) -> In k' (keys t) -> shares 0 c' k k') -> c = c'.
  Proof.
    induction t as [k v|kids IH] using trie_ind'; intros c c' Hw Hw' H2 Hc Hc' Dc Dc' Hs Hs'; [cbn in H2; lia|].
    apply (wf_branch hash L lg Hlg) in Hw as [_ Hw]. apply (wf_branch hash L lg Hlg) in Hw' as [_ Hw']. destruct kids as [|[i t] [|[i' t'] r]].
    - cbn in H2. lia.
    - inversion IH as [|? ? I1 _]; subst. cbn [snd] in I1. cbn [entries flat_map app] in H2. rewrite app_nil_r in H2. cbn [snd] in H2.
      destruct (wfk_mid hash L lg W Hlg HW Hhash c [] i t [] Hw) as (K1 & W1 & _). destruct (wfk_mid hash L lg W Hlg HW Hhash c' [] i t [] Hw') as (K1' & W1' & _).
      assert (Hin : forall k, In k (keys t) -> In k (keys (Branch [(i, t)]))) by (intros k Hk; exact (keysk_key k [(i, t)] i t (or_introl eq_refl) Hk)).
      assert (c + lg = c' + lg); [|lia]. apply I1; auto; try lia; try (apply Z.divide_add_r; auto; apply Z.divide_refl).
      + intros k k' Hk Hk'. apply shares_snoc; auto. now rewrite (K1 k Hk), (K1 k' Hk').
      + intros k k' Hk Hk'. apply shares_snoc; auto. now rewrite (K1' k Hk), (K1' k' Hk').
    - destruct (wfk_mid hash L lg W Hlg HW Hhash c [] i t _ Hw) as (K1 & W1 & _ & Hlt & _). destruct (wfk_mid hash L lg W Hlg HW Hhash c [(i, t)] i' t' r Hw) as (K2 & W2 & _).
      destruct (wfk_mid hash L lg W Hlg HW Hhash c' [] i t _ Hw') as (K1' & _). destruct (wfk_mid hash L lg W Hlg HW Hhash c' [(i, t)] i' t' r Hw') as (K2' & _).
      inversion Hlt as [|? ? Hlt1 _]; subst. cbn [fst] in Hlt1. destruct (wf_nonempty hash L lg Hlg _ _ W1) as [a Ha]. destruct (wf_nonempty hash L lg Hlg _ _ W2) as [b Hb].
      assert (Hia : In a (keys (Branch ((i, t) :: (i', t') :: r)))) by (apply (keysk_key a _ i t); [now left|assumption]).
      assert (Hib : In b (keys (Branch ((i, t) :: (i', t') :: r)))) by (apply (keysk_key b _ i' t'); [right; now left|assumption]).
      destruct Dc as [q ->]. destruct Dc' as [q' ->]. destruct (Z.lt_trichotomy q q') as [Hl|[->|Hl]]; [exfalso|reflexivity|exfalso].
      + specialize (Hs' a b Hia Hib q ltac:(nia) ltac:(nia)). rewrite Z.add_0_l in Hs'. rewrite (K1 a Ha), (K2 b Hb) in Hs'. lia.
      + specialize (Hs a b Hia Hib q' ltac:(nia) ltac:(nia)). rewrite Z.add_0_l in Hs. rewrite (K1' a Ha), (K2' b Hb) in Hs. lia.
  Qed.

  (** ** The block behind a failed fetch *)

  (** [m] is the stored form of a sub-shard of [kids], met when following the hash of [k] from bit [c] on. *)
  Definition touch (U : node -> Prop) (w : world) (c : Z) (kids : list (Z * trie)) (k : bytes) : Prop :=
    exists m c' kk, c + lg <= c' /\ (lg | c' - c) /\ wfk c' kk /\ (2 <= length (entriesk kk))%nat /\ ser U (Branch kk) m /\ dserv_get w m <> Ok m /\
      forall k', In k' (keysk kk) -> In k' (keysk kids) /\ shares c c' k k'.

  Lemma touch_child U w ds pre i t post c k s : reps U ds (pre ++ (i, t) :: post) -> wfk c (pre ++ (i, t) :: post) -> slot_of k c = i ->
    get_child w (zlen pre) ds = (Err EFetch, s) -> touch U w c (pre ++ (i, t) :: post) k.
  Proof.
    intros H Hwf Hi Hg. destruct (wfk_mid hash L lg W Hlg HW Hhash _ _ _ _ _ Hwf) as (K1 & Hw & _). destruct (reps_nth W P U ds pre i t post H) as (x & Hx & Hr & Hc).
    unfold get_child in Hg. rewrite Hc, Hx in Hg. destruct x as [l|ch]; [|discriminate]. destruct (reps_lg lg W P HW U ds _ H) as [_ Hpad]. unfold loadChild, childLinkType in Hg. rewrite Hpad in Hg. destruct t as [k0 v|kk].
    - exfalso. destruct Hr as [(p & Hp & Hn) Hv]. cbn [HamtRep.wf] in Hw. rewrite Hn, app_length, Hp in Hg. replace (_ <? _)%nat with false in Hg by lia. cbn [rbind] in Hg.
      destruct k0 as [|b0 k0]; [congruence|]. replace (pad + length (b0 :: k0) =? pad)%nat with false in Hg by (cbn [length]; lia). cbn [negb] in Hg.
      unfold makeShardValue in Hg. destruct H as (_ & Hs & _). rewrite Hs, (makeShard_W lg W Hlg HW) in Hg. cbn [rbind] in Hg. rewrite Hpad, Hn, app_length, Hp in Hg. replace (_ <? _)%nat with false in Hg by lia. discriminate.
    - destruct Hr as (Hl & Hv & HU). rewrite Hl in Hg. replace (pad <? pad)%nat with false in Hg by lia. cbn [rbind] in Hg. rewrite Nat.eqb_refl in Hg. cbn [negb] in Hg.
      apply (wf_branch hash L lg Hlg) in Hw as [Hn Hw]. destruct (load_ser hash L lg W P Hlg HW Hhash U kk (c + lg) (lto l) Hw HU HP) as (ch & El & _).
      exists (lto l), (c + lg), kk. split; [lia|]. split; [exists 1; lia|]. split; [exact Hw|]. split; [exact Hn|]. split; [exact HU|]. split.
      + intros E. rewrite E in Hg. cbn [rbind] in Hg. rewrite El in Hg. discriminate.
      + intros k' Hk'. split; [rewrite keysk_app, keysk_cons, !in_app_iff; right; left; exact Hk'|]. apply shares_step; [rewrite (K1 k' Hk'); exact Hi|apply shares_nil].
  Qed.
  Lemma touch_down U w pre i kk post c k : wfk c (pre ++ (i, Branch kk) :: post) -> slot_of k c = i -> touch U w (c + lg) kk k -> touch U w c (pre ++ (i, Branch kk) :: post) k.
  Proof.
    intros Hwf Hi (m & c' & k2 & H1 & H2 & H3 & H4 & H5 & H6 & H7). destruct (wfk_mid hash L lg W Hlg HW Hhash _ _ _ _ _ Hwf) as (K1 & _).
    exists m, c', k2. split; [lia|]. split; [replace (c' - c) with (c' - (c + lg) + lg) by lia; apply Z.divide_add_r; [exact H2|apply Z.divide_refl]|]. split; [exact H3|]. split; [exact H4|]. split; [exact H5|]. split; [exact H6|].
    intros k' Hk'. destruct (H7 k' Hk') as [A B]. split; [rewrite keysk_app, keysk_cons, !in_app_iff; right; left; exact A|]. apply shares_step; [rewrite (K1 k' A); exact Hi|exact B].
  Qed.
  Lemma touch_few U w c kids k : (length (entriesk kids) <= 1)%nat -> ~ touch U w c kids k.
  Proof.
    intros Hl (m & c' & kk & _ & _ & Hw & Hn & _ & _ & Hin). pose proof (wfk_nodup hash L lg W Hlg HW Hhash _ _ Hw) as N.
    assert (length (keysk kk) <= length (keysk kids))%nat by (apply NoDup_incl_length; [exact N|intros x Hx; now apply Hin]). unfold keysk in *. rewrite !map_length in *. lia.
  Qed.

  Lemma find_touch U fuel : forall w c ds kids k, (Z.to_nat (L - c) < fuel)%nat -> 0 <= c -> reps U ds kids -> wfk c kids -> k <> [] ->
    fst (getValue fuel w (mkHB (hash k) c) k ds) = Err EFetch -> touch U w c kids k.
  Proof.
    induction fuel as [|fuel IH]; intros w c ds kids k Hf Hc Hr Hwf Hk; [lia|].
    assert (HcL : c + lg <= L) by apply Hwf. pose proof (slot_range hash L lg W Hlg HW Hhash k c) as Rg.
    cbn [getValue]. unfold bind, get_shard, lift, ret, throw, has, sliceIndex. destruct (reps_lg lg W P HW U _ _ Hr) as [Etl _]. rewrite Etl. rewrite (next_hash hash L lg Hlg Hhash) by assumption.
    destruct (bitmap_has hash L W Hhash (s_bf ds) (map fst kids) (slot_of k c)) as (b & Eb & Hb); [apply Hr|assumption|]. rewrite Eb. destruct b; [|discriminate].
    assert (Hin : In (slot_of k c) (map fst kids)) by (now apply Hb). destruct (split_slot hash L lg _ _ _ Hwf Hin) as (pre & t & post & ->).
    rewrite (slice_spec hash L lg W P Hlg HW Hhash U c ds pre t post _ Hr Hwf). pose proof (wfk_mid hash L lg W Hlg HW Hhash _ _ _ _ _ Hwf) as (Kt & Wt & _ & _ & _).
    destruct (get_child_spec hash L lg W P Hlg HW Hhash U w ds pre (slot_of k c) t post (c + lg) Hr Wt HP) as [(ch & Hch & Eg)|[Eg Hff]].
    2:{ intros _. exact (touch_child U w ds pre _ t post c k ds Hr Hwf eq_refl Eg). }
    rewrite Eg. destruct t as [k0 v0|kk].
    - destruct (isValue_leaf W P U ch k0 v0 Wt Hch) as (Ev & Ek & l0 & El & Ec & Ep). rewrite Ev, Ek, El. destruct (bytes_eqb k0 k); discriminate.
    - rewrite (isValue_branch lg W P Hlg U ch kk Hch). apply (rep_branch lg W P Hlg) in Hch. apply (wf_branch hash L lg Hlg) in Wt as [_ Wk]. unfold on_child.
      assert (HroomL : c + lg + lg <= L) by apply Wk. specialize (IH w (c + lg) ch kk k ltac:(lia) ltac:(lia) Hch Wk Hk).
      destruct (getValue fuel w (mkHB (hash k) (c + lg)) k ch) as [r1 ch1]. cbn [fst] in IH. destruct r1 as [o|e| |]; cbn [fst]; try discriminate. intros E. apply touch_down; auto.
  Qed.

  Lemma swap_touch U fuel : forall w c ds kids k value, (Z.to_nat (L - c) < fuel)%nat -> 0 <= c -> reps U ds kids -> wfk c kids -> k <> [] -> prefixed W k value ->
    fst (swapValue hash fuel w (mkHB (hash k) c) k value ds) = Err EFetch -> touch U w c kids k.
  Proof.
    induction fuel as [|fuel IH]; intros w c ds kids k value Hf Hc Hr Hwf Hk Hpv; [lia|].
    assert (HcL : c + lg <= L) by apply Hwf. pose proof (slot_range hash L lg W Hlg HW Hhash k c) as Rg.
    cbn [swapValue]. unfold bind, get_shard, lift, ret, throw, has, sliceIndex. destruct (reps_lg lg W P HW U _ _ Hr) as [Etl _]. rewrite Etl. rewrite (next_hash hash L lg Hlg Hhash) by assumption.
    destruct (bitmap_has hash L W Hhash (s_bf ds) (map fst kids) (slot_of k c)) as (b & Eb & Hb); [apply Hr|assumption|]. rewrite Eb. destruct b; cbn [negb].
    2:{ assert (Hnin : ~ In (slot_of k c) (map fst kids)) by (intros Hi; apply Hb in Hi; discriminate).
      destruct (split_free hash L lg _ _ _ Hwf Hnin) as (pre & post & -> & Ha & Hp). unfold upd_shard. destruct value as [l|]; cbn [option_map].
      - destruct (insert_spec hash L lg W P Hlg HW Hhash U c pre post ds k l _ Hr Hwf Hk eq_refl Ha Hp) as (ds' & -> & Hr'). discriminate.
      - discriminate. }
    assert (Hin : In (slot_of k c) (map fst kids)) by (now apply Hb). destruct (split_slot hash L lg _ _ _ Hwf Hin) as (pre & t & post & ->).
    rewrite (slice_spec hash L lg W P Hlg HW Hhash U c ds pre t post _ Hr Hwf). pose proof (wfk_mid hash L lg W Hlg HW Hhash _ _ _ _ _ Hwf) as (Kt & Wt & _ & _ & _).
    destruct (get_child_spec hash L lg W P Hlg HW Hhash U w ds pre (slot_of k c) t post (c + lg) Hr Wt HP) as [(ch & Hch & Eg)|[Eg Hff]].
    2:{ intros _. exact (touch_child U w ds pre _ t post c k ds Hr Hwf eq_refl Eg). }
    rewrite Eg. pose proof (reps_set W P U ds pre _ t t post (SShard ch) Hr Hch) as Hr1. destruct t as [k0 v0|kk].
    - destruct (isValue_leaf W P U ch k0 v0 Wt Hch) as (Ev & Ek & l0 & El & Ec & Ep). rewrite Ev, Ek, El. destruct (bytes_eqb k0 k) eqn:E0.
      + unfold upd_shard. destruct value as [l|]; [discriminate|]. apply bytes_eqb_eq in E0. subst k0. destruct (rm_spec hash L lg W P Hlg HW Hhash U c pre post _ _ _ Hr1 Hwf) as (ds' & -> & Hr'). discriminate.
      + destruct value as [l|]; [|discriminate]. destruct Hr as (R1 & R2 & R3 & R4 & R5). rewrite R2. unfold NewShard, NewShardValue. rewrite (makeShard_W lg W Hlg HW). cbn [hb_consumed].
        set (fresh := SetCidBuilder (s_builder ds) (mkShard W None (zeros W) [] None [])).
        assert (Hfresh : reps U fresh []) by (apply (reps_new hash L lg W P Hlg HW Hhash U (s_builder ds) R3); apply (makeShard_W lg W Hlg HW)). unfold newConsumedHashBits.
        destruct (Z_le_gt_dec (c + lg + lg) L) as [Hroom|Hno].
        2:{ assert (Edeep : swapValue hash fuel w (mkHB (hash k) (c + lg)) k (Some l) fresh = (Err ETooDeep, fresh)).
            { destruct fuel as [|fuel']; [lia|]. cbn [swapValue]. unfold bind, get_shard, lift. destruct (reps_lg lg W P HW U _ _ Hfresh) as [-> _]. rewrite (next_hash_end hash L lg Hhash) by lia. reflexivity. }
            rewrite Edeep. discriminate. }
        pose proof (IH w (c + lg) fresh [] k (Some l) ltac:(lia) ltac:(lia) Hfresh (wfk_nil hash L lg _ Hroom) Hk Hpv) as T1.
        pose proof (swap_spec hash L lg W P Hlg HW Hhash U HP fuel w (c + lg) fresh [] k (Some l) ltac:(lia) ltac:(lia) Hfresh (wfk_nil hash L lg _ Hroom) Hk Hpv) as S1.
        destruct (swapValue hash fuel w (mkHB (hash k) (c + lg)) k (Some l) fresh) as [r1 fresh1]. cbn [fst snd option_map] in S1, T1. destruct S1 as (kids1 & A1 & A2 & A3).
        destruct r1 as [o1|e1| |]; [| |discriminate|discriminate].
        2:{ cbn [fst]. intros E. exfalso. apply T1 in E. revert E. apply touch_few. cbn. lia. }
        destruct A3 as (o1' & _ & A3). apply upd_length in A3. cbn [entriesk flat_map length] in A3.
        pose proof (IH w (c + lg) fresh1 kids1 k0 (Some l0) ltac:(lia) ltac:(lia) A1 A2 Wt Ep) as T2.
        destruct (swapValue hash fuel w (mkHB (hash k0) (c + lg)) k0 (Some l0) fresh1) as [r2 fresh2]. cbn [fst snd] in T2.
        destruct r2 as [o2|e2| |]; [discriminate| |discriminate|discriminate].
        cbn [fst]. intros E. exfalso. apply T2 in E. revert E. apply touch_few. destruct o1'; lia.
    - rewrite (isValue_branch lg W P Hlg U ch kk Hch). apply (rep_branch lg W P Hlg) in Hch. apply (wf_branch hash L lg Hlg) in Wt as [Wn Wk]. unfold on_child.
      assert (HroomL : c + lg + lg <= L) by apply Wk. pose proof (IH w (c + lg) ch kk k value ltac:(lia) ltac:(lia) Hch Wk Hk Hpv) as T1.
      pose proof (swap_spec hash L lg W P Hlg HW Hhash U HP fuel w (c + lg) ch kk k value ltac:(lia) ltac:(lia) Hch Wk Hk Hpv) as S1.
      destruct (swapValue hash fuel w (mkHB (hash k) (c + lg)) k value ch) as [r1 ch1]. cbn [fst snd] in S1, T1. destruct S1 as (kk1 & A1 & A2 & A3).
      destruct r1 as [o1|e1| |]; [|cbn [fst]; intros E; apply touch_down; auto|discriminate|discriminate].
      destruct value as [l|]; [discriminate|]. destruct A3 as (o & Ho & Hu). pose proof (upd_length _ _ _ _ _ Hu) as Hlen. cbn [option_map] in *.
      assert (Hlen1 : (1 <= length (entriesk kk1))%nat) by (destruct o; [|contradiction]; lia).
      assert (F2 : Forall2 (fun y x => rep U x (snd y)) kk1 (s_slots ch1)) by apply A1.
      destruct (s_slots ch1) as [|x1 [|x2 sr]] eqn:Esl.
      + inversion F2; subst. cbn in Hlen1. lia.
      + destruct x1 as [slnk|sch].
        * unfold childLinkType. destruct (_ <? _)%nat; [discriminate|]. destruct (negb _); discriminate.
        * destruct (isValueNode sch); discriminate.
      + destruct x1; discriminate.
  Qed.

  (** ** The blocks of a saved directory *)

  Lemma slot_link_hex l i : 0 <= i < W -> (lname l = hexpad pad i <-> slot_link W l i /\ lname l = hexpad pad i).
  Proof.
    intros H. split; [|tauto]. intros E. split; [|exact E]. destruct (pad_digits lg W Hlg HW) as [Ep _]. destruct (slot_names W i H) as (_ & N & _). split.
    - rewrite E, <- Ep. exact N.
    - rewrite E. now apply hexpad_value.
  Qed.

  Section Below.
    Variables (nd : node) (St : node -> Prop).
    (** A stored shard below [nd], and the names on whose path it lies. *)
    Definition below (m : node) : Prop :=
      exists c kk, 0 < c /\ (lg | c) /\ (2 <= length (entriesk kk))%nat /\ wfk c kk /\ ser (fun _ => True) (Branch kk) m /\ St m /\
        (forall k k', In k (keysk kk) -> In k' (keysk kk) -> shares 0 c k k') /\ (forall k k', In k' (keysk kk) -> shares 0 c k k' -> onp k 0 nd m).

    (** What is known of a shard [m] at depth [c] with the names [ks]. *)
    Definition located (c : Z) (m : node) (ks : list bytes) : Prop :=
      (forall k k', In k ks -> In k' ks -> shares 0 c k k') /\
      (forall k k' m', In k' ks -> shares 0 c k k' -> onp k c m m' -> onp k 0 nd m').

    Definition below_goal (t : trie) : Prop := forall c m, wf c t -> 0 < c -> (lg | c) ->
      (forall kids, t = Branch kids -> located c m (keys t) /\ forall k k', In k' (keys t) -> shares 0 c k k' -> onp k 0 nd m) -> ser St t m -> ser below t m.

    Lemma below_links kids : Forall (fun x => below_goal (snd x)) kids -> forall c p dt ls, wfk c kids -> 0 <= c -> (lg | c) -> located c (NProto p dt ls) (keysk kids) ->
      Forall2 (ser_link W P St) kids ls -> Forall2 (ser_link W P below) kids ls.
    Proof.
      intros IH c p dt ls Hw Hc Dc [Hl1 Hl2] HF. pose proof (wfk_range hash L lg W Hlg HW Hhash _ _ Hw) as HR. destruct Hw as (_ & _ & Hw).
      destruct (pad_digits lg W Hlg HW) as [Ep Elg].
      assert (G : forall ks lr, (forall y, In y ks -> In y kids) -> (forall l, In l lr -> In l ls) -> Forall2 (ser_link W P St) ks lr -> Forall2 (ser_link W P below) ks lr).
      { intros ks lr Hks Hlr HF2. induction HF2 as [|y l ks lr (A1 & A2 & A3) HF2 IH2]; [constructor|]. constructor; [|apply IH2; [intros; apply Hks; now right|intros; apply Hlr; now right]].
        assert (Hy : In y kids) by (apply Hks; now left). assert (Hll : In l ls) by (apply Hlr; now left). split; [exact A1|]. split; [exact A2|].
        rewrite Forall_forall in IH, Hw, HR. destruct (Hw y Hy) as [K1 K2]. assert (R1 : 0 <= fst y < W) by (apply HR; now apply in_map). destruct y as [i t]. cbn [fst snd] in *.
        assert (Sl : forall kk, t = Branch kk -> forall k, slot_of k c = i -> slot_link W l (bits_at (hash k) c (Z.log2 W))).
        { intros kk -> k Hk. rewrite Elg. unfold HamtRep.slot_of in Hk. rewrite Hk. cbn [tkey] in A1. rewrite app_nil_r in A1. now apply (slot_link_hex l i R1). }
        assert (Sh : forall k k', In k' (keys t) -> shares 0 (c + lg) k k' -> shares 0 c k k' /\ slot_of k c = i).
        { intros k k' Hk' Hs. split; [intros j J1 J2; apply Hs; lia|]. rewrite <- (K1 k' Hk'). destruct Dc as [q ->]. specialize (Hs q ltac:(nia) ltac:(nia)). now rewrite Z.add_0_l in Hs. }
        apply (IH (i, t) Hy (c + lg)); [exact K2|lia|apply Z.divide_add_r; [exact Dc|apply Z.divide_refl]| |exact A3]; cbn [snd].
        intros kk Ekk. split; [split|].
        - intros k k' Hk Hk'. apply shares_snoc; [assumption|assumption|apply Hl1; eapply keysk_key; eauto|]. now rewrite (K1 k Hk), (K1 k' Hk').
        - intros k k' m' Hk' Hs Ho. destruct (Sh k k' Hk' Hs) as [S1 S2]. apply (Hl2 k k' m'); [eapply keysk_key; eauto|exact S1|]. eapply path_down; [cbn [node_links]; exact Hll|apply (Sl kk Ekk k S2)|]. now rewrite Elg.
        - intros k k' Hk' Hs. destruct (Sh k k' Hk' Hs) as [S1 S2]. apply (Hl2 k k' (lto l)); [eapply keysk_key; eauto|exact S1|]. apply path_here; [exact Hll|]. apply (Sl kk Ekk k S2). }
      apply G; auto.
    Qed.
    Lemma below_ser t : below_goal t.
    Proof.
      induction t as [k v|kids IH] using trie_ind'; intros c m Hw Hc Dc Hl Hs; [exact Hs|]. destruct (Hl kids eq_refl) as [Hl1 Hl2].
      assert (HT : ser (fun _ => True) (Branch kids) m) by (apply (ser_mono lg W P Hlg St); [auto|exact Hs]). apply (ser_branch lg W P Hlg) in Hs as (p & ls & -> & H1 & H2 & H3). apply (ser_branch lg W P Hlg). exists p, ls. split; [reflexivity|]. split; [exact H1|].
      apply (wf_branch hash L lg Hlg) in Hw as [Hn Hw]. split.
      - exists c, kids. split; [exact Hc|]. split; [exact Dc|]. split; [exact Hn|]. split; [exact Hw|]. split; [exact HT|]. split; [exact H2|]. split; [apply Hl1|exact Hl2].
      - eapply below_links; [exact IH|exact Hw|lia|exact Dc|exact Hl1|exact H3].
    Qed.

    (** The directory loaded from [nd] leaves only blocks below it unloaded. *)
    Lemma below_load kids : wfk 0 kids -> ser St (Branch kids) nd -> exists ds, NewHamtFromDag nd = Ok ds /\ reps below ds kids.
    Proof.
      intros Hw Hs. destruct (load_ser hash L lg W P Hlg HW Hhash St kids 0 nd Hw Hs HP) as (ds & El & (H1 & H2 & H3 & H4 & H5) & _). exists ds. split; [exact El|].
      split; [exact H1|]. split; [exact H2|]. split; [exact H3|]. split; [exact H4|]. apply (ser_branch lg W P Hlg) in Hs as (p & ls & En & _ & _ & HF).
      assert (HB : Forall2 (ser_link W P below) kids ls).
      { eapply (below_links kids); [apply Forall_forall; intros x _; apply below_ser|exact Hw|lia|exists 0; lia| |exact HF]. rewrite <- En. split.
        - intros k k' _ _. apply shares_nil.
        - intros k k' m' _ _ H. exact H. }
      assert (Es : s_slots ds = map SLink ls).
      { rewrite En in El. unfold NewHamtFromDag in El. destruct (FSNodeFromBytes _); try discriminate. cbn [rbind] in El. destruct (negb _); [discriminate|]. destruct (negb _); [discriminate|]. destruct (makeShard _ _ _); try discriminate. cbn [rbind] in El.
        destruct (bf_setbytes _ _); try discriminate. injection El as <-. reflexivity. }
      rewrite Es in *. clear - HB H5. revert H5. induction HB as [|y l ks ls (A1 & A2 & A3) HB IH]; intros H5; cbn [map] in *; [constructor|]. inversion H5 as [|? ? ? ? B1 B2]; subst. constructor; [|now apply IH].
      destruct (snd y) as [k v|kk]; [exact B1|]. destruct B1 as (B1 & B3 & _). split; [exact B1|]. split; [exact B3|exact A3].
    Qed.

    (** A fetch that fails during an operation on [k] is one of a block on the path of [k]. *)
    Lemma touch_path w kids k : (forall m, St m -> stored w m = true) -> touch below w 0 kids k -> exists m, onp k 0 nd m /\ w_getok w m = false.
    Proof.
      intros HS (m & c' & kk & H1 & H2 & H3 & H4 & H5 & H6 & H7). rewrite Z.sub_0_r in H2. pose proof (ser_U lg W P Hlg below kk m H5) as (c & kk0 & B1 & B2 & B3 & B4 & B5 & B6 & B7 & B8).
      assert (W1 : wf c' (Branch kk)) by (apply (wf_branch hash L lg Hlg); auto). assert (W2 : wf c (Branch kk0)) by (apply (wf_branch hash L lg Hlg); auto).
      assert (E : Branch kk = Branch kk0) by (apply (ser_inj below (fun _ => True) (Branch kk) (Branch kk0) c' c m W1 W2 eq_refl ltac:(discriminate) H5 B5)). injection E as <-.
      assert (c' = c).
      { apply (depth_unique (Branch kk) c' c); auto; try lia. intros a b Ha Hb. destruct (H7 a Ha) as [_ Sa]. destruct (H7 b Hb) as [_ Sb]. eapply shares_trans; [apply shares_sym; exact Sa|exact Sb]. }
      subst c'. destruct (wf_nonempty hash L lg Hlg _ _ W1) as [a Ha]. exists m. split; [apply (B8 k a Ha); now apply H7|].
      unfold dserv_get in H6. rewrite (HS m B6) in H6. cbn in H6. destruct (w_getok w m); [congruence|reflexivity].
    Qed.
    Lemma below_path m : below m -> exists k, onp k 0 nd m.
    Proof.
      intros (c & kk & B1 & B2 & B3 & B4 & B5 & B6 & B7 & B8). assert (W1 : wf c (Branch kk)) by (apply (wf_branch hash L lg Hlg); auto).
      destruct (wf_nonempty hash L lg Hlg _ _ W1) as [a Ha]. exists a. apply (B8 a a Ha). now apply B7.
    Qed.
  End Below.

  (** ** Histories *)
  Hypothesis HL : lg <= L.
  Notation inv := (inv hash L lg W P).

  Lemma swap_fetch U d s w k value : inv U d (s, w) -> k <> [] -> prefixed W k value ->
    fst (swapValue hash (hfuel hash k) w (newHashBits hash k) k value s) = Err EFetch -> exists kids, touch U w 0 kids k.
  Proof.
    intros (HU & kids & Hr & Hw & Hd) Hk Hpv E. exists kids. cbn [fst snd] in *.
    apply (swap_touch U (hfuel hash k) w 0 s kids k value); auto; [unfold hfuel; pose proof (Hhash k); unfold zlen in *; lia|lia].
  Qed.
  Lemma exec_fetch U d s w op k : inv U d (s, w) -> hname op = Some k -> k <> [] -> fst (hexec hash op (s, w)) = Err EFetch ->
    exists w' kids, w_getok w' = w_getok w /\ wext w w' /\ touch U w' 0 kids k.
  Proof.
    intros Hi Hn Hk He.
    assert (One : (exists kids, touch U w 0 kids k) -> exists w' kids, w_getok w' = w_getok w /\ wext w w' /\ touch U w' 0 kids k).
    { intros [kids T]. exists w, kids. split; [reflexivity|]. split; [apply wext_refl|exact T]. }
    destruct op as [k1 n|k1 l|k1 n|k1|k1|k1| | |]; try discriminate; injection Hn as ->; cbn [hexec] in He.
    - unfold Set_, bind, Swap in He. destruct (dserv_add_spec n None w) as (ra & w1 & Ea & Xa & Ca & Ha). rewrite Ea in He. destruct Ha as [(-> & _)|[-> _]]; [|discriminate].
      pose proof (swap_fetch U d s w1 k (Some (make_link (linkNamePrefix s 0 ++ k) n)) (inv_world hash L lg W P _ _ _ _ _ Hi Xa) Hk (set_prefixed hash L lg W P Hlg HW Hhash _ _ _ _ k n (inv_world hash L lg W P _ _ _ _ _ Hi Xa))) as T.
      destruct (swapValue _ _ _ _ _ _ _) as [r s']. destruct r as [o|e| |]; try discriminate. cbn in He. injection He as ->. destruct (T eq_refl) as [kids T']. exists w1, kids. split; [apply Xa|]. auto.
    - unfold SetLink, bind, get_shard in He. pose proof (swap_fetch U d s w k (Some (mkLink (linkNamePrefix s 0 ++ k) (lsize l) (lto l))) Hi Hk (setlink_prefixed hash L lg W P Hlg HW Hhash _ _ _ _ k l Hi)) as T.
      destruct (swapValue _ _ _ _ _ _ _) as [r s']. destruct r as [o|e| |]; try discriminate. cbn in He. injection He as ->. apply One. now apply T.
    - unfold Swap in He. destruct (dserv_add_spec n None w) as (ra & w1 & Ea & Xa & Ca & Ha). rewrite Ea in He. destruct Ha as [(-> & _)|[-> _]]; [|discriminate].
      pose proof (swap_fetch U d s w1 k (Some (make_link (linkNamePrefix s 0 ++ k) n)) (inv_world hash L lg W P _ _ _ _ _ Hi Xa) Hk (set_prefixed hash L lg W P Hlg HW Hhash _ _ _ _ k n (inv_world hash L lg W P _ _ _ _ _ Hi Xa))) as T.
      destruct (swapValue _ _ _ _ _ _ _) as [r s']. destruct r as [o|e| |]; try discriminate. cbn in He. injection He as ->. destruct (T eq_refl) as [kids T']. exists w1, kids. split; [apply Xa|]. auto.
    - unfold Remove, Take, bind in He. pose proof (swap_fetch U d s w k None Hi Hk I) as T. destruct (swapValue _ _ _ _ _ _ _) as [r s']. destruct r as [o|e| |]; try discriminate. cbn in He. injection He as ->. apply One. now apply T.
    - unfold Take in He. pose proof (swap_fetch U d s w k None Hi Hk I) as T. destruct (swapValue _ _ _ _ _ _ _) as [r s']. destruct r as [o|e| |]; try discriminate. cbn in He. injection He as ->. apply One. now apply T.
    - destruct Hi as (HU & kids & Hr & Hw & Hd). cbn [fst snd] in *. unfold Find, newHashBits in He.
      pose proof (find_touch U (hfuel hash k) w 0 s kids k ltac:(unfold hfuel; pose proof (Hhash k); unfold zlen in *; lia) ltac:(lia) Hr Hw Hk) as T. destruct (getValue _ _ _ _ _) as [r s']. cbn [fst] in *.
      destruct r as [[o|]|e| |]; try discriminate. injection He as ->. apply One. exists kids. now apply T.
  Qed.

  Lemma run_path nd St ops : forall d sw, inv (below nd St) d sw -> (forall m, St m -> stored (snd sw) m = true) -> Forall (fun op => hname op <> Some []) ops -> existsb is_reload ops = false ->
    conforms_by hash (L / lg * lg) (needed_missing hash W nd (snd sw)) d (fst (hrun hash ops sw)).
  Proof.
    induction ops as [|op ops IH]; intros d [s w] Hi HS HF HR; cbn [hrun]; [exact I|]. inversion HF as [|? ? F1 F2]; subst. cbn [existsb] in HR. apply orb_false_iff in HR as [HR1 HR2].
    pose proof (exec_ok hash L lg W P Hlg HW Hhash HP HL (below nd St) d (s, w) op Hi F1) as S1. pose proof (exec_fetch (below nd St) d s w op) as T. destruct (hexec hash op (s, w)) as [r sw1]. destruct S1 as (X1 & A1 & V & I1 & HV).
    destruct HV as [->|[Hr _]]; [|congruence]. cbn [fst snd] in *. specialize (IH _ sw1 I1 ltac:(intros m Hm; eapply wext_stored; eauto) F2 HR2). destruct (hrun hash ops sw1) as [h sw2]. cbn [fst conforms_by o_op] in *. split.
    - destruct A1 as [[Hm He]|A1]; [|right; exact A1]. left. split; [|exact He]. cbn [o_res] in He. destruct (hname op) as [k|] eqn:En.
      + assert (Hk : k <> []) by (intros ->; now apply F1). destruct (T k Hi eq_refl Hk He) as (w' & kids & Eg & Xw & Ht). destruct (touch_path nd St w' kids k ltac:(intros m Hm'; eapply wext_stored; eauto) Ht) as (m & M1 & M2).
        unfold needed_missing. rewrite En. exists k, m. split; [reflexivity|]. split; [exact M1|]. now rewrite <- Eg.
      + destruct Hm as (m & M1 & M2). destruct (below_path nd St m M1) as [k Hk]. unfold needed_missing. rewrite En. exists k, m. auto.
    - assert (Eg : w_getok (snd sw1) = w_getok w) by apply X1. revert IH. generalize (effect d (mkObs op (add_failedb w (snd sw1)) r)). clear - Eg. induction h as [|o h IH]; intros d' H; [exact I|]. cbn [conforms_by] in *. destruct H as [H1 H2]. split; [|now apply IH].
      destruct H1 as [[(k & m & M1 & M2 & M3) He]|H1]; [|right; exact H1]. left. split; [|exact He]. exists k, m. rewrite Eg in M3. auto.
  Qed.

  (** ** Every block on the path is fetched *)

  (** The sub-shard in the slot of a name. *)
  Lemma slot_kid U c kids p dt ls l k : wfk c kids -> Forall2 (ser_link W P U) kids ls -> In l (node_links (NProto p dt ls)) -> slot_link W l (bits_at (hash k) c (Z.log2 W)) ->
    exists pre kk post la lb, kids = pre ++ (slot_of k c, Branch kk) :: post /\ ls = la ++ l :: lb /\ length la = length pre /\ ser U (Branch kk) (lto l) /\
      forall l', In l' ls -> slot_link W l' (bits_at (hash k) c (Z.log2 W)) -> l' = l.
  Proof.
    intros Hw HF Hl. cbn [node_links] in Hl. destruct (pad_digits lg W Hlg HW) as [Ep Elg]. rewrite Elg. clear Elg. fold (slot_of k c). pose proof (wfk_range hash L lg W Hlg HW Hhash _ _ Hw) as HR.
    assert (Kid : forall x l', In x kids -> ser_link W P U x l' -> slot_link W l' (slot_of k c) -> fst x = slot_of k c /\ exists kk, snd x = Branch kk).
    { intros [i t] l' Hx (A1 & A2 & A3) [S1 S2]. cbn [fst snd] in *. rewrite Forall_forall in HR. assert (R1 : 0 <= i < W) by (apply (HR i); apply in_map_iff; exists (i, t); auto).
      destruct (slot_names W i R1) as (_ & N & _). fold pad in N. rewrite A1, app_length, N, Ep in S1. destruct (tkey t) as [|b0 r] eqn:Et; [|cbn in S1; lia]. rewrite A1, app_nil_r, (hexpad_value W i R1) in S2. split; [congruence|].
      destruct Hw as (_ & _ & Hw). rewrite Forall_forall in Hw. destruct (Hw _ Hx) as [_ Hwt]. now apply (tkey_wf (c + lg)). }
    intros Hs. apply in_split in Hl as (la & lb & ->). apply Forall2_app_inv_r in HF as (pre & r & F1 & F2 & ->). inversion F2 as [|y ? post ? A F3]; subst.
    destruct (Kid y l ltac:(apply in_app_iff; right; now left) A Hs) as [Ei [kk Ek]]. destruct y as [i t]. cbn [fst snd] in *. subst i t.
    exists pre, kk, post, la, lb. split; [reflexivity|]. split; [reflexivity|]. split; [symmetry; exact (forall2_length _ _ _ F1)|]. split; [apply A|].
    intros l' Hl' Hs'. destruct (wfk_mid hash L lg W Hlg HW Hhash _ _ _ _ _ Hw) as (_ & _ & S1 & S2 & _). rewrite Forall_forall in S1, S2.
    assert (Find2 : forall ks lr, Forall2 (ser_link W P U) ks lr -> In l' lr -> exists x, In x ks /\ ser_link W P U x l').
    { clear. induction 1 as [|x l ks lr A _ IH]; intros H; [destruct H|]. destruct H as [->|H]; [exists x; split; [now left|exact A]|]. destruct (IH H) as (y & H1 & H2). exists y. split; [now right|exact H2]. }
    apply in_app_iff in Hl' as [Hl'|[->|Hl']]; [|reflexivity|]; exfalso.
    - destruct (Find2 _ _ F1 Hl') as (x & X1 & X2). destruct (Kid x l' ltac:(apply in_app_iff; now left) X2 Hs') as [X3 _]. specialize (S1 x X1). lia.
    - destruct (Find2 _ _ F3 Hl') as (x & X1 & X2). destruct (Kid x l' ltac:(apply in_app_iff; right; now right) X2 Hs') as [X3 _]. specialize (S2 x X1). lia.
  Qed.

  Lemma load_slots U kids c p dt ls : wfk c kids -> ser U (Branch kids) (NProto p dt ls) -> exists ds, NewHamtFromDag (NProto p dt ls) = Ok ds /\ reps U ds kids /\ s_slots ds = map SLink ls /\ Forall2 (ser_link W P U) kids ls.
  Proof.
    intros Hw Hs. destruct (load_ser hash L lg W P Hlg HW Hhash U kids c _ Hw Hs HP) as (ds & El & Hr & _). exists ds. split; [exact El|]. split; [exact Hr|].
    apply (ser_branch lg W P Hlg) in Hs as (p' & ls' & En & _ & _ & HF). injection En as <- E <-. split; [|exact HF].
    unfold NewHamtFromDag in El. destruct (FSNodeFromBytes _); try discriminate. cbn [rbind] in El. destruct (negb _); [discriminate|]. destruct (negb _); [discriminate|]. destruct (makeShard _ _ _); try discriminate. cbn [rbind] in El.
    destruct (bf_setbytes _ _); try discriminate. injection El as <-. reflexivity.
  Qed.

  Lemma find_needs U k w m : w_getok w m = false -> forall c nd, onp k c nd m -> forall fuel kids ds, (Z.to_nat (L - c) < fuel)%nat -> 0 <= c -> wfk c kids -> ser U (Branch kids) nd -> NewHamtFromDag nd = Ok ds ->
    fst (getValue fuel w (mkHB (hash k) c) k ds) = Err EFetch.
  Proof.
    intros Hm. destruct (pad_digits lg W Hlg HW) as [Ep Elg].
    assert (Step : forall c nd l fuel kids ds, In l (node_links nd) -> slot_link W l (bits_at (hash k) c (Z.log2 W)) -> (Z.to_nat (L - c) < S fuel)%nat -> 0 <= c -> wfk c kids -> ser U (Branch kids) nd -> NewHamtFromDag nd = Ok ds ->
      match dserv_get w (lto l) with
      | Ok _ => exists kk ch, wfk (c + lg) kk /\ ser U (Branch kk) (lto l) /\ NewHamtFromDag (lto l) = Ok ch /\
          (fst (getValue fuel w (mkHB (hash k) (c + lg)) k ch) = Err EFetch -> fst (getValue (S fuel) w (mkHB (hash k) c) k ds) = Err EFetch)
      | _ => fst (getValue (S fuel) w (mkHB (hash k) c) k ds) = Err EFetch
      end).
    { intros c nd l fuel kids ds Hl Hsl Hf Hc Hwf Hs El. assert (exists p dt ls, nd = NProto p dt ls) as (p & dt & ls & ->) by (pose proof Hs as Hs'; apply (ser_branch lg W P Hlg) in Hs' as (p & ls & -> & _); eauto).
      destruct (load_slots U kids c p dt ls Hwf Hs) as (ds' & El' & Hr & Esl & HF). rewrite El in El'. injection El' as <-.
      destruct (slot_kid U c kids p dt ls l k Hwf HF Hl Hsl) as (pre & kk & post & la & lb & -> & -> & Ela & Hsk & _).
      assert (HcL : c + lg <= L) by apply Hwf. pose proof (slot_range hash L lg W Hlg HW Hhash k c) as Rg.
      cbn [getValue]. unfold bind, get_shard, lift, ret, throw, has, sliceIndex. destruct (reps_lg lg W P HW U _ _ Hr) as [Etl Hpad]. rewrite Etl. rewrite (next_hash hash L lg Hlg Hhash) by assumption.
      destruct (bitmap_has hash L W Hhash (s_bf ds) (map fst (pre ++ (slot_of k c, Branch kk) :: post)) (slot_of k c)) as (b & Eb & Hb); [apply Hr|assumption|]. rewrite Eb.
      assert (b = true) as -> by (apply Hb; rewrite map_app, in_app_iff; right; now left).
      rewrite (slice_spec hash L lg W P Hlg HW Hhash U c ds pre _ post _ Hr Hwf). pose proof (wfk_mid hash L lg W Hlg HW Hhash _ _ _ _ _ Hwf) as (_ & Wt & _ & _ & _). apply (wf_branch hash L lg Hlg) in Wt as [Wn Wk].
      destruct (reps_nth W P U ds pre _ _ post Hr) as (x & Hx & Hrx & Hck).
      assert (Ex : x = SLink l). { rewrite Esl, map_app in Hx. cbn [map] in Hx. unfold zlen in Hx. rewrite Nat2Z.id, <- Ela, <- (map_length (@SLink shard) la), nth_error_mid in Hx. congruence. }
      subst x. destruct Hrx as (Hlen & _ & _). unfold get_child. rewrite Hck, Hx. unfold loadChild, childLinkType. rewrite Hpad, Hlen. replace (pad <? pad)%nat with false by lia. cbn [rbind]. rewrite Nat.eqb_refl. cbn [negb].
      unfold dserv_get. destruct (stored w (lto l) && w_getok w (lto l)) eqn:Eg; cbn [rbind]; [|reflexivity].
      destruct (load_ser hash L lg W P Hlg HW Hhash U kk (c + lg) (lto l) Wk Hsk HP) as (ch & Ech & Hrch & _). rewrite Ech. exists kk, ch. split; [exact Wk|]. split; [exact Hsk|]. split; [reflexivity|].
      rewrite (isValue_branch lg W P Hlg U ch kk) by now apply (rep_branch lg W P Hlg). unfold on_child. destruct (getValue fuel w (mkHB (hash k) (c + lg)) k ch) as [r1 ch1]. cbn [fst]. intros ->. reflexivity. }
    induction 1 as [c nd l Hl Hsl|c nd l m Hl Hsl Hon IH]; intros fuel kids ds Hf Hc Hwf Hs El; (destruct fuel as [|fuel]; [lia|]); pose proof (Step c nd l fuel kids ds Hl Hsl Hf Hc Hwf Hs El) as G.
    - unfold dserv_get in G. rewrite Hm, andb_false_r in G. exact G.
    - destruct (dserv_get w (lto l)); [|exact G|exact G|exact G]. destruct G as (kk & ch & G1 & G2 & G3 & G4). apply G4. assert (c + lg <= L) by apply Hwf. rewrite <- Elg in *. apply (IH Hm fuel kk ch); auto; lia.
  Qed.

  (** ** The number of blocks on a path *)
  Lemma path_blocks U k n : forall c kids nd, (Z.to_nat (L - c) < n)%nat -> 0 <= c -> wfk c kids -> ser U (Branch kids) nd ->
    exists ms, (forall m, onp k c nd m <-> In m ms) /\ (Z.of_nat (length ms) + 1) * lg <= L - c.
  Proof.
    destruct (pad_digits lg W Hlg HW) as [Ep Elg].
    induction n as [|n IH]; intros c kids nd Hn Hc Hwf Hs; [lia|]. assert (HcL : c + lg <= L) by apply Hwf. pose proof Hs as Hs'. apply (ser_branch lg W P Hlg) in Hs' as (p & ls & -> & _ & _ & HF).
    assert (D : (exists l, In l ls /\ slot_link W l (bits_at (hash k) c (Z.log2 W))) \/ ~ exists l, In l ls /\ slot_link W l (bits_at (hash k) c (Z.log2 W))).
    { assert (G : forall l, {slot_link W l (bits_at (hash k) c (Z.log2 W))} + {~ slot_link W l (bits_at (hash k) c (Z.log2 W))}).
      { intros l. unfold slot_link. destruct (Nat.eq_dec (length (lname l)) (slot_digits W)) as [E|E]; [|right; tauto]. destruct (hex_value 0 (lname l)) as [v|]; [|right; intros [_ H]; discriminate].
        destruct (Z.eq_dec v (bits_at (hash k) c (Z.log2 W))) as [->|Hne]; [left; auto|right; intros [_ H]; congruence]. }
      destruct (Exists_dec (fun l => slot_link W l (bits_at (hash k) c (Z.log2 W))) ls G) as [H|H]; rewrite Exists_exists in H; auto. }
    destruct D as [(l & Hl & Hsl)|D].
    - destruct (slot_kid U c kids p [] ls l k Hwf HF Hl Hsl) as (pre & kk & post & la & lb & -> & _ & _ & Hsk & Hu). pose proof (wfk_mid hash L lg W Hlg HW Hhash _ _ _ _ _ Hwf) as (_ & Wt & _ & _ & _). apply (wf_branch hash L lg Hlg) in Wt as [_ Wk].
      destruct (IH (c + lg) kk (lto l) ltac:(lia) ltac:(lia) Wk Hsk) as (ms & M1 & M2). exists (lto l :: ms). split; [|cbn [length]; nia].
      intros m. cbn [In]. rewrite <- M1, <- Elg. split.
      + intros H. inversion H as [? ? l' A B|? ? l' ? A B C]; subst; rewrite (Hu l' A B) in *; auto.
      + intros [<-|H]; [now apply path_here|]. eapply path_down; eauto.
    - exists []. split; [|cbn; lia]. intros m. split; [|intros []]. intros H. exfalso. apply D. inversion H as [? ? l' A B|? ? l' ? A B C]; subst; eauto.
  Qed.
End Path.

(** ** The theorems *)

Section Facts.
  Variables (hash : bytes -> bytes) (n : nat) (W : Z) (b : option prefix).
  Hypothesis Hn : (2 <= n)%nat.
  Hypothesis Hh : forall k, length (hash k) = n.
  Hypothesis Hv : valid_width W.

  Lemma saved_below s w d nd w1 : reached hash W b s w d -> Node s w = (Ok nd, w1) -> exists lg kids, 3 <= lg <= 10 /\ Logtwo W = Ok lg /\ (forall k, 8 * zlen (hash k) = 8 * Z.of_nat n) /\
    (forall p, proto_prefix b = p -> p = proto_prefix (Some p)) /\ lg <= 8 * Z.of_nat n /\ usable n W = 8 * Z.of_nat n / lg * lg /\
    wfk hash (8 * Z.of_nat n) lg 0 kids /\ holds d kids /\ ser W (eq (proto_prefix b)) (fun m => stored w1 m = true) (Branch kids) nd.
  Proof.
    intros HR E. destruct (setup hash n W b Hn Hh Hv) as (lg & H1 & H2 & H3 & H4 & H5 & H6). destruct (reached_inv hash n W b lg s w d H1 H2 H3 H4 H5 HR) as [U HI].
    destruct (node_dir hash _ lg W _ H1 H2 H3 U d s w HI) as (kids & Hr & Hw & Hd & r & w' & E' & X & Hp). rewrite E in E'. injection E' as <- <-. destruct Hp as [((nd' & E' & Hs) & _)|[E' _]]; [|discriminate]. injection E' as <-.
    exists lg, kids. repeat (split; [assumption|]). exact Hs.
  Qed.

  Lemma path_history s w d nd w1 s' w2 g ops : reached hash W b s w d -> Node s w = (Ok nd, w1) -> NewHamtFromDag nd = Ok s' -> wext w1 w2 -> named_ops ops -> existsb is_reload ops = false ->
    conforms_by hash (usable n W) (needed_missing hash W nd (with_faults g w2)) d (fst (hrun hash ops (s', with_faults g w2))).
  Proof.
    intros HR E El Hx HF Hrl. destruct (saved_below s w d nd w1 HR E) as (lg & kids & H1 & H2 & H3 & H4 & H5 & H6 & Hw & Hd & Hs). rewrite H6.
    destruct (below_load hash _ lg W _ H1 H2 H3 H4 nd (fun m => stored w1 m = true) kids Hw Hs) as (ds & El' & Hr). rewrite El in El'. injection El' as <-.
    assert (HS : forall m, stored w1 m = true -> stored (with_faults g w2) m = true) by (intros m Hm; exact (wext_stored w1 w2 m Hx Hm)).
    apply (run_path hash _ lg W _ H1 H2 H3 H4 H5 nd (fun m => stored w1 m = true) ops d (s', with_faults g w2)); auto.
    split; [|exists kids; auto]. intros m (c & kk & _ & _ & _ & _ & _ & Hm & _). now apply HS.
  Qed.

  Lemma path_find s w d nd w1 s' w2 g k : reached hash W b s w d -> Node s w = (Ok nd, w1) -> NewHamtFromDag nd = Ok s' -> wext w1 w2 -> k <> [] ->
    (fst (Find hash (with_faults g w2) k s') = Err EFetch <-> exists m, on_path hash W k 0 nd m /\ g m = false).
  Proof.
    intros HR E El Hx Hk. destruct (saved_below s w d nd w1 HR E) as (lg & kids & H1 & H2 & H3 & H4 & H5 & H6 & Hw & Hd & Hs).
    destruct (below_load hash _ lg W _ H1 H2 H3 H4 nd (fun m => stored w1 m = true) kids Hw Hs) as (ds & El' & Hr). rewrite El in El'. injection El' as <-.
    assert (HS : forall m, stored w1 m = true -> stored (with_faults g w2) m = true) by (intros m Hm; exact (wext_stored w1 w2 m Hx Hm)). unfold Find, newHashBits. split.
    - intros He. assert (Hf : (Z.to_nat (8 * Z.of_nat n - 0) < hfuel hash k)%nat) by (unfold hfuel; pose proof (H3 k); unfold zlen in *; lia).
      pose proof (find_touch hash _ lg W _ H1 H2 H3 H4 _ _ (with_faults g w2) 0 s' kids k Hf (Z.le_refl 0) Hr Hw Hk He) as T.
      destruct (touch_path hash _ lg W _ H1 H2 H3 nd _ _ _ _ HS T) as (m & M1 & M2). eauto.
    - intros (m & M1 & M2). assert (Hf : (Z.to_nat (8 * Z.of_nat n - 0) < hfuel hash k)%nat) by (unfold hfuel; pose proof (H3 k); unfold zlen in *; lia).
      exact (find_needs hash _ lg W _ H1 H2 H3 H4 H5 _ k (with_faults g w2) m M2 0 nd M1 _ kids s' Hf (Z.le_refl 0) Hw Hs El).
  Qed.

  Lemma path_length s w d nd w1 k : reached hash W b s w d -> Node s w = (Ok nd, w1) ->
    exists ms, (forall m, on_path hash W k 0 nd m <-> In m ms) /\ (Z.of_nat (length ms) + 1) * Z.log2 W <= 8 * Z.of_nat n.
  Proof.
    intros HR E. destruct (saved_below s w d nd w1 HR E) as (lg & kids & H1 & H2 & H3 & H4 & H5 & H6 & Hw & Hd & Hs). destruct (pad_digits lg W H1 H2) as [_ ->].
    destruct (path_blocks hash _ lg W _ H1 H2 H3 H4 H5 _ k _ 0 kids nd (Nat.lt_succ_diag_r _) ltac:(lia) Hw Hs) as (ms & M1 & M2). exists ms. split; [exact M1|lia].
  Qed.
End Facts.

(** Operations on names whose path is available never fail to fetch. *)
Lemma run_ops hash ops : forall sw, map o_op (fst (hrun hash ops sw)) = ops.
Proof.
  induction ops as [|op ops IH]; intros [s w]; [reflexivity|]. cbn [hrun]. destruct (hexec hash op (s, w)) as [r sw1]. specialize (IH sw1). destruct (hrun hash ops sw1) as [h sw2]. cbn [fst map o_op] in *. now f_equal.
Qed.
Lemma conforms_never hash us Q ops : forall h d, map o_op h = ops -> (forall op, In op ops -> ~ Q op) -> conforms_by hash us Q d h -> conforms hash us False d h.
Proof.
  intros h d E HN. assert (HN' : forall o, In o h -> ~ Q (o_op o)) by (intros o Ho; apply HN; rewrite <- E; now apply in_map). clear E HN. revert d.
  induction h as [|o h IH]; intros d H; [exact I|]. cbn [conforms_by conforms] in *. destruct H as [H1 H2]. split; [|apply IH; auto; intros; apply HN'; now right].
  destruct H1 as [[H1 _]|H1]; [destruct (HN' o ltac:(now left) H1)|right; exact H1].
Qed.
Lemma path_available hash n W b : (2 <= n)%nat -> (forall k, length (hash k) = n) -> valid_width W ->
  forall s w d nd w1 s' w2 g ops, reached hash W b s w d -> Node s w = (Ok nd, w1) -> NewHamtFromDag nd = Ok s' -> wext w1 w2 -> named_ops ops ->
  (forall op, In op ops -> exists k, hname op = Some k /\ forall m, on_path hash W k 0 nd m -> g m = true) ->
  conforms hash (usable n W) False d (fst (hrun hash ops (s', with_faults g w2))).
Proof.
  intros Hn Hh Hv s w d nd w1 s' w2 g ops HR E El Hx Hnm Ha. eapply conforms_never; [apply run_ops| |eapply path_history; eauto].
  - intros op Ho (k & m & M1 & M2 & M3). destruct (Ha op Ho) as (k' & K1 & K2). rewrite K1 in M1. subst k. cbn in M3. rewrite (K2 m M2) in M3. discriminate.
  - destruct (existsb is_reload ops) eqn:Er; [|reflexivity]. apply existsb_exists in Er as (op & Ho & Er). destruct (Ha op Ho) as (k & K & _). destruct op; discriminate.
Qed.
