(** Shards loaded from nodes of any origin: no operation panics. *)
From Coq Require Import Sorting.Permutation.
From Verif Require Import Base Pb PbProofs FSNode FSNodeProofs Dag DagProofs Builder HashBits Bitfield SpecHash HashProofs Hamt SpecHamt HamtExec HamtRep HamtNode HamtRun HamtFacts Walk WalkProofs DirBasic SpecRobust.

(** *** Counting bits *)
Lemma filter_flip (f g : nat -> bool) n k : (k < n)%nat -> f k = false -> g k = true -> (forall j, (j < n)%nat -> j <> k -> g j = f j) ->
  length (filter g (seq 0 n)) = S (length (filter f (seq 0 n))).
Proof.
  intros Hk Hf Hg He. replace n with (k + S (n - S k))%nat by lia. rewrite !seq_app, !filter_app, !app_length. cbn [seq Nat.add filter]. rewrite Hf, Hg. cbn [length].
  rewrite (filter_ext_in' g f (seq 0 k)), (filter_ext_in' g f (seq (S k) (n - S k))); [lia| |]; intros x Hx; apply in_seq in Hx; apply He; lia.
Qed.
Lemma bits_seq bm : bits bm = zlen (filter (fun k => occupied bm (Z.of_nat k)) (seq 0 (8 * length bm))).
Proof. unfold bits, occupied_before. replace (Z.to_nat (8 * zlen bm)) with (8 * length bm)%nat by (unfold zlen; lia). reflexivity. Qed.
Lemma bits_set bf i b : 0 <= i < 8 * zlen bf -> occupied bf i = false -> bf_set bf i = Ok b -> zlen b = zlen bf /\ bits b = bits bf + 1.
Proof.
  intros Hi Ho E. destruct (bf_set_ok bf i Hi) as (b' & E' & H1 & H2). rewrite E in E'. injection E' as <-. split; [assumption|]. rewrite !bits_seq. unfold zlen in *. replace (length b) with (length bf) by lia.
  rewrite (filter_flip (fun k => occupied bf (Z.of_nat k)) (fun k => occupied b (Z.of_nat k)) (8 * length bf) (Z.to_nat i)); [lia|lia|now rewrite Z2Nat.id by lia| |].
  - rewrite Z2Nat.id by lia. rewrite H2 by lia. rewrite Z.eqb_refl. reflexivity.
  - intros j Hj Hne. rewrite H2 by lia. replace (Z.of_nat j =? i) with false by lia. reflexivity.
Qed.
Lemma bits_unset bf i b : 0 <= i < 8 * zlen bf -> occupied bf i = true -> bf_unset bf i = Ok b -> zlen b = zlen bf /\ bits bf = bits b + 1.
Proof.
  intros Hi Ho E. destruct (bf_unset_ok bf i Hi) as (b' & E' & H1 & H2). rewrite E in E'. injection E' as <-. split; [assumption|]. rewrite !bits_seq. unfold zlen in *. replace (length b) with (length bf) by lia.
  rewrite (filter_flip (fun k => occupied b (Z.of_nat k)) (fun k => occupied bf (Z.of_nat k)) (8 * length bf) (Z.to_nat i)); [lia|lia| |now rewrite Z2Nat.id by lia|].
  - rewrite Z2Nat.id by lia. rewrite H2 by lia. rewrite Z.eqb_refl. reflexivity.
  - intros j Hj Hne. rewrite H2 by lia. replace (Z.of_nat j =? i) with false by lia. reflexivity.
Qed.
Lemma before_bits bf i : 0 <= i < 8 * zlen bf -> 0 <= occupied_before bf i /\ occupied_before bf i + (if occupied bf i then 1 else 0) <= bits bf.
Proof.
  intros Hi. unfold occupied_before. rewrite bits_seq. unfold zlen in *. split; [lia|]. replace (8 * length bf)%nat with (Z.to_nat i + S (8 * length bf - S (Z.to_nat i)))%nat by lia.
  rewrite seq_app, filter_app, app_length. cbn [seq Nat.add filter]. rewrite Z2Nat.id by lia. destruct (occupied bf i); cbn [length]; lia.
Qed.
Lemma set_bits_len bf n : forall from l, (0 <= from) -> set_bits bf from n = Ok l -> from + Z.of_nat n <= 8 * zlen bf -> length l = length (filter (fun k => occupied bf (Z.of_nat k)) (seq (Z.to_nat from) n)).
Proof.
  induction n as [|n IH]; intros from l H0 H Hn; cbn [set_bits seq filter] in *; [injection H as <-; reflexivity|]. rewrite bf_bit_ok in H by lia. cbn [rbind] in H.
  destruct (set_bits bf (from + 1) n) as [r| | |] eqn:E; try discriminate. cbn [rbind] in H. injection H as <-. rewrite Z2Nat.id by lia. specialize (IH (from + 1) r ltac:(lia) E ltac:(lia)). replace (Z.to_nat (from + 1)) with (S (Z.to_nat from)) in IH by lia.
  destruct (occupied bf from); cbn [length]; lia.
Qed.
Lemma bits_zeros n : bits (repeat x00 n) = 0.
Proof. rewrite bits_seq. erewrite filter_ext_in' with (g := fun _ => false). 2:{ intros x _. apply occupied_zero. } unfold zlen. induction (seq 0 (8 * length (repeat x00 n))); [reflexivity|assumption]. Qed.
Lemma bits_pad n b : bits (repeat x00 n ++ b) = bits b.
Proof.
  rewrite !bits_seq, app_length, repeat_length. replace (8 * (n + length b))%nat with (8 * length b + 8 * n)%nat by lia. rewrite seq_app, filter_app. unfold zlen. rewrite app_length.
  rewrite (filter_ext_in' (fun k => occupied (repeat x00 n ++ b) (Z.of_nat k)) (fun _ => false) (seq (0 + 8 * length b) _)).
  - rewrite (filter_ext_in' (fun k => occupied (repeat x00 n ++ b) (Z.of_nat k)) (fun k => occupied b (Z.of_nat k)) (seq 0 (8 * length b))).
    + assert (E : forall l : list nat, filter (fun _ => false) l = []) by (induction l; auto). rewrite E. cbn [length]. lia.
    + intros x Hx. apply in_seq in Hx. rewrite !occupied_byte by lia. unfold bf_byte, bf_index. unfold zlen. rewrite app_length, repeat_length.
      replace ((Z.of_nat x <? 0)) with false by lia. assert (Z.of_nat x / 8 < Z.of_nat (length b)) by (apply Z.div_lt_upper_bound; lia). assert (0 <= Z.of_nat x / 8) by (apply Z.div_pos; lia).
      replace (Z.of_nat (n + length b) - Z.of_nat x / 8 - 1 <? 0) with false by lia. replace (Z.of_nat (length b) - Z.of_nat x / 8 - 1 <? 0) with false by lia. cbn [orb].
      rewrite nth_error_app2 by (rewrite repeat_length; lia). rewrite repeat_length. replace (Z.to_nat (Z.of_nat (n + length b) - Z.of_nat x / 8 - 1) - n)%nat with (Z.to_nat (Z.of_nat (length b) - Z.of_nat x / 8 - 1)) by lia. reflexivity.
  - intros x Hx. apply in_seq in Hx. rewrite occupied_byte by lia. unfold bf_byte, bf_index, zlen. rewrite app_length, repeat_length. replace ((Z.of_nat x <? 0)) with false by lia.
    assert (Hq : Z.of_nat (length b) <= Z.of_nat x / 8) by (apply Z.div_le_lower_bound; lia). destruct (Z.of_nat (n + length b) - Z.of_nat x / 8 - 1 <? 0) eqn:E; cbn [orb]; [reflexivity|].
    rewrite nth_error_app1 by (rewrite repeat_length; lia). rewrite nth_error_repeat by lia. change (b2z x00) with 0. apply Z.testbit_0_l.
Qed.

(** *** The invariant of a shard in memory *)
Section Inv.
  Variable st : option Z.
  Definition node_ok (n : node) : Prop := match st with None => bitmaps_fit n | Some W => regular W n end.
  Definition link_ok (size : Z) (l : link) : Prop :=
    (length (lname l) = digits size -> node_ok (lto l)) /\ match st with None => True | Some _ => (digits size <= length (lname l))%nat end.
  Fixpoint sgood (s : shard) : Prop :=
    let (size, _, bf, _, _, slots) := s in
    valid_width size /\ 8 * zlen bf = size /\ match st with None => True | Some W => size = W /\ bits bf <= zlen slots end /\
    fold_right (fun x R => match x with SLink l => link_ok size l | SShard c => isValueNode c = true \/ sgood c end /\ R) True slots.
  Definition slot_ok (size : Z) (x : slot shard) : Prop := match x with SLink l => link_ok size l | SShard c => isValueNode c = true \/ sgood c end.
  Lemma sgood_iff s : sgood s <-> valid_width (s_size s) /\ 8 * zlen (s_bf s) = s_size s /\ match st with None => True | Some W => s_size s = W /\ bits (s_bf s) <= zlen (s_slots s) end /\ Forall (slot_ok (s_size s)) (s_slots s).
  Proof.
    destruct s as [size b bf k v slots]. cbn [sgood s_size s_bf s_slots].
    assert (E : fold_right (fun x R => match x with SLink l => link_ok size l | SShard c => isValueNode c = true \/ sgood c end /\ R) True slots <-> Forall (slot_ok size) slots); [|tauto].
    induction slots as [|x r IH]; cbn [fold_right]; [split; [constructor|auto]|]. rewrite IH. split; [intros [H1 H2]; constructor; [exact H1|exact H2]|]. intros H. inversion H; subst. split; assumption.
  Qed.

  Lemma fits_sub n W bm ls l : node_ok n -> is_shard W bm ls n -> In l ls -> length (lname l) = digits W -> node_ok (lto l).
  Proof.
    unfold node_ok. intros H Hs Hi Hl. destruct st.
    - intros m W' bm' ls' Hm. apply H. econstructor; eauto.
    - intros m W' bm' ls' Hm. apply H. econstructor; eauto.
  Qed.

  (** Loading. *)
  Lemma load_ok n : node_ok n -> sane (NewHamtFromDag n) /\ forall s, NewHamtFromDag n = Ok s -> sgood s /\ (sheight s <= nheight n)%nat.
  Proof.
    intros Hn. destruct n as [p d|p d ls]; [split; [exact I|discriminate]|]. cbn [NewHamtFromDag].
    destruct (FSNodeFromBytes d) as [fsn|e| |] eqn:E; cbn [rbind]; [|split; [exact I|discriminate]| |]; try (exfalso; destruct (unmarshal_total d) as [[x X]|[x X]]; unfold FSNodeFromBytes in E; congruence).
    destruct (getType fsn =? THAMTShard) eqn:Et; cbn [negb]; [|split; [exact I|discriminate]]. destruct (getHashType fsn =? HashMurmur3) eqn:Eh; cbn [negb]; [|split; [exact I|discriminate]].
    apply Z.eqb_eq in Et, Eh. destruct (load_width p d ls fsn E Et Eh) as (L1 & L2 & L3). cbn [NewHamtFromDag] in L1, L2, L3. rewrite E in L1, L2, L3. cbn [rbind] in L1, L2, L3. rewrite Et, Eh, !Z.eqb_refl in L1, L2, L3. cbn [negb] in L1, L2, L3.
    assert (Hdec : valid_width (getFanout fsn) \/ ~ valid_width (getFanout fsn)).
    { destruct (NewShard_width (getFanout fsn)) as [A1 A2]. destruct (NewShard (getFanout fsn)) eqn:X; [left|right|right|right]; try (intros V; destruct (A1 V) as (? & ? & _); discriminate).
      unfold NewShard, NewShardValue, makeShard in X. destruct (Logtwo (getFanout fsn)) as [lg| | |] eqn:Y; try discriminate. cbn [rbind] in X. unfold newChilder, maximumHamtWidth in X. destruct (1024 <? getFanout fsn) eqn:Z1; [discriminate|]. unfold NewBitfield in X. destruct (getFanout fsn <? 0); [discriminate|]. destruct (getFanout fsn mod 8 =? 0) eqn:Z2; [|discriminate].
      apply Logtwo_ok in Y. split; [exists lg; tauto|]. lia. }
    destruct Hdec as [Hv|Hv]; [|destruct (L3 Hv) as [e ->]; split; [exact I|discriminate]].
    assert (His : is_shard (getFanout fsn) (getData fsn) ls (NProto p d ls)) by (econstructor; eauto).
    assert (Hfit : 8 * zlen (getData fsn) <= getFanout fsn) by (unfold node_ok in Hn; destruct st; [destruct (Hn _ _ _ _ (Sub_here _) His) as (X1 & X2 & _); lia|exact (Hn _ _ _ _ (Sub_here _) His)]).
    destruct (L1 Hv Hfit) as (s & Es & Esz). rewrite Es. split; [exact I|]. intros s' [= <-].
    destruct (makeShard (i64 (getFanout fsn)) [] None) as [ds| | |] eqn:Em; try discriminate. cbn [rbind] in Es. destruct (bf_setbytes (s_bf ds) (getData fsn)) as [bf| | |] eqn:Eb; try discriminate. cbn [rbind] in Es. injection Es as <-. cbn [s_size] in Esz.
    destruct (proj1 (valid_lg _) Hv) as (lg & G1 & G2 & _).
    assert (Ei : i64 (getFanout fsn) = getFanout fsn). { pose proof (W_bounds lg _ G1 G2). unfold i64, two63, two64. lia. }
    rewrite Ei, (makeShard_W lg _ G1 G2) in Em. injection Em as <-. cbn [s_bf s_size] in *. pose proof (zeros_len lg _ G1 G2) as Zl. unfold bf_setbytes in Eb. destruct (_ <? _) eqn:El; [discriminate|]. injection Eb as <-.
    split.
    - apply sgood_iff. cbn [s_size s_bf s_slots]. split; [assumption|]. split; [unfold zlen in *; rewrite app_length, repeat_length; lia|]. split.
      + unfold node_ok in Hn. destruct st; [|exact I]. destruct (Hn _ _ _ _ (Sub_here _) His) as (H1 & H2 & H3 & H4). split; [assumption|]. rewrite bits_pad. unfold zlen in *. now rewrite map_length.
      + rewrite Forall_map, Forall_forall. intros l Hl. cbn [slot_ok]. split; [now apply (fits_sub _ _ _ _ l Hn His)|]. unfold node_ok in Hn. destruct st; [|exact I]. destruct (Hn _ _ _ _ (Sub_here _) His) as (H1 & H2 & H3 & H4). rewrite Forall_forall in H4. rewrite H1. now apply H4.
    - cbn [sheight nheight]. apply le_n_S. clear. induction ls as [|l r IH]; cbn [map fold_right]; lia.
  Qed.

  Lemma valid_make W k v : valid_width W -> makeShard W k v = Ok (mkShard W None (zeros W) k v []).
  Proof. intros Hv. destruct (proj1 (valid_lg _) Hv) as (lg & G1 & G2 & _). now apply (makeShard_W lg). Qed.
  Lemma valid_digits W : valid_width W -> (0 < digits W)%nat.
  Proof. intros Hv. destruct (proj1 (valid_lg _) Hv) as (lg & G1 & G2 & _). pose proof (W_bounds lg W G1 G2). unfold digits. apply hexX_len. lia. Qed.

  Lemma child_ok w s l : sgood s -> link_ok (s_size s) l -> sane (loadChild w s l) /\ forall c, loadChild w s l = Ok c -> (isValueNode c = true \/ sgood c) /\ (isValueNode c = false -> (sheight c <= nheight (lto l))%nat).
  Proof.
    intros Hs [Hl _]. apply sgood_iff in Hs as (Hv & Hb & _). unfold loadChild, childLinkType. change (maxpadlen s) with (digits (s_size s)). destruct (length (lname l) <? digits (s_size s))%nat eqn:E1; cbn [rbind]; [split; [exact I|discriminate]|].
    destruct (length (lname l) =? digits (s_size s))%nat eqn:E2; cbn [negb].
    - apply Nat.eqb_eq in E2. unfold dserv_get. destruct (stored w (lto l) && w_getok w (lto l)); cbn [rbind]; [|split; [exact I|discriminate]]. destruct (load_ok (lto l) (Hl E2)) as [A B]. split; [assumption|]. intros c Hc. destruct (B c Hc). auto.
    - unfold makeShardValue. rewrite (valid_make _ _ _ Hv). cbn [rbind]. change (maxpadlen s) with (digits (s_size s)). rewrite E1. split; [exact I|]. intros c [= <-]. apply Nat.eqb_neq in E2.
      assert (Hval : isValueNode (mkShard (s_size s) None (zeros (s_size s)) (skipn (digits (s_size s)) (lname l)) (Some l) []) = true).
      { cbn [isValueNode s_key s_val]. destruct (skipn (digits (s_size s)) (lname l)) eqn:Ek; [|reflexivity]. apply (f_equal (@length _)) in Ek. rewrite skipn_length in Ek. cbn [length] in Ek. apply Nat.ltb_ge in E1. lia. }
      cbn [s_size s_builder s_bf s_slots]. split; [now left|congruence].
  Qed.

  Lemma set_good s x i : sgood s -> slot_ok (s_size s) x -> sgood (set_child x i s).
  Proof.
    intros Hs Hx. apply sgood_iff in Hs as (Hv & Hb & He & HF). apply sgood_iff. unfold set_child, set_slots. cbn [s_size s_bf s_slots]. split; [assumption|]. split; [assumption|]. split; [destruct st; [|exact I]; unfold zlen in *; now rewrite set_nth_length|].
    clear - Hx HF. revert i. induction HF as [|y r Hy HF IH]; intros i; [destruct (Z.to_nat i); constructor|]. destruct (Z.to_nat i) as [|m] eqn:E; cbn [set_nth]; constructor; auto. specialize (IH (Z.of_nat m)). now rewrite Nat2Z.id in IH.
  Qed.

  Definition same_frame (s s' : shard) : Prop := s_size s' = s_size s /\ s_bf s' = s_bf s /\ length (s_slots s') = length (s_slots s).
  Lemma same_refl s : same_frame s s.
  Proof. now split. Qed.
  Lemma same_set s x i : same_frame s (set_child x i s).
  Proof. destruct s. unfold set_child, set_slots, same_frame. cbn [s_size s_bf s_slots]. now rewrite set_nth_length. Qed.

  Lemma get_ok w s i : sgood s -> 0 <= i ->
    sane (fst (get_child w i s)) /\ sgood (snd (get_child w i s)) /\ same_frame s (snd (get_child w i s)) /\
    forall c, fst (get_child w i s) = Ok c -> (isValueNode c = true \/ sgood c) /\ i < zlen (s_slots s).
  Proof.
    intros Hs Hi. unfold get_child, check. destruct ((zlen (s_slots s) <=? i) || (i <? 0)) eqn:E; [cbn [fst snd]; split; [exact I|]; split; [assumption|]; split; [apply same_refl|discriminate]|].
    apply orb_false_iff in E as [E _]. pose proof Hs as Hs'. apply sgood_iff in Hs' as (_ & _ & _ & HF). destruct (nth_error (s_slots s) (Z.to_nat i)) as [x|] eqn:En; [|apply nth_error_None in En; unfold zlen in E; lia].
    rewrite Forall_forall in HF. specialize (HF x (nth_error_In _ _ En)). destruct x as [l|c]; cbn [slot_ok] in HF.
    - destruct (child_ok w s l Hs HF) as [A B]. destruct (loadChild w s l) as [c|e| |]; try contradiction; cbn [fst snd].
      + split; [exact I|]. split; [apply set_good; [assumption|]; apply (B c eq_refl)|]. split; [apply same_set|]. intros c' [= <-]. split; [apply (B c eq_refl)|lia].
      + split; [exact I|]. split; [assumption|]. split; [apply same_refl|discriminate].
    - cbn [fst snd]. split; [exact I|]. split; [assumption|]. split; [apply same_refl|]. intros c' [= <-]. split; [assumption|lia].
  Qed.

  Section Find.
    Variable hash : bytes -> bytes.
    Lemma next_sane s hv : sgood s -> 0 <= hb_consumed hv ->
      (exists idx, Next hv (tableSizeLg2 s) = Ok (idx, mkHB (hb_b hv) (hb_consumed hv + tableSizeLg2 s)) /\ 0 <= idx < s_size s /\ hb_consumed hv + tableSizeLg2 s <= 8 * zlen (hb_b hv) /\ 3 <= tableSizeLg2 s) \/ Next hv (tableSizeLg2 s) = Err ETooDeep.
    Proof.
      intros Hs Hc. apply sgood_iff in Hs as (Hv & _). destruct (proj1 (valid_lg _) Hv) as (lg & G1 & G2 & _). unfold tableSizeLg2. rewrite G2. destruct hv as [h c]. cbn [hb_consumed hb_b] in *. destruct (Z_le_gt_dec (c + lg) (8 * zlen h)) as [H|H].
      - left. exists (bits_at h c lg). rewrite next_ok by lia. split; [reflexivity|]. pose proof (bits_at_range h c lg ltac:(lia)). apply Logtwo_ok in G2 as [_ ->]. lia.
      - right. apply next_end. lia.
    Qed.

    Lemma getValue_ok fuel : forall w hv key s, sgood s -> 0 <= hb_consumed hv -> 8 * zlen (hb_b hv) - hb_consumed hv < Z.of_nat fuel -> hb_consumed hv <= 8 * zlen (hb_b hv) ->
      let (r, s') := getValue fuel w hv key s in sane r /\ r <> Ok None /\ sgood s' /\ same_frame s s'.
    Proof.
      induction fuel as [|f IH]; intros w hv key s Hs Hc Hf Hle; [lia|]. cbn [getValue]. unfold bind at 1, get_shard. destruct (next_sane s hv Hs Hc) as [(idx & E & Hi & Hb & H3)|E]; unfold bind at 1, lift at 1; rewrite E; [|split; [exact I|]; split; [discriminate|]; split; [assumption|apply same_refl]].
      pose proof Hs as Hs'. apply sgood_iff in Hs' as (_ & Hbf & _). unfold has. rewrite bf_bit_ok by lia. unfold bind at 1, lift at 1. destruct (occupied (s_bf s) idx); [|split; [exact I|]; split; [discriminate|]; split; [assumption|apply same_refl]].
      unfold sliceIndex. rewrite bf_before_ok by lia. unfold bind at 1, lift at 1. pose proof (before_bits (s_bf s) idx ltac:(lia)) as [Hp _]. destruct (get_ok w s _ Hs Hp) as (G1 & G2 & G3 & G4).
      unfold bind at 1. destruct (get_child w _ s) as [r s1]. cbn [fst snd] in *. destruct r as [c|e| |]; try contradiction; [|split; [exact I|]; split; [discriminate|]; split; assumption].
      destruct (G4 c eq_refl) as [Hcok _]. destruct (isValueNode c) eqn:Ev.
      - destruct (bytes_eqb (s_key c) key); [|split; [exact I|]; split; [discriminate|]; split; assumption]. unfold ret. split; [exact I|]. split; [|split; assumption]. unfold isValueNode in Ev. destruct (s_key c), (s_val c); congruence.
      - destruct Hcok as [|Hcg]; [congruence|]. specialize (IH w (mkHB (hb_b hv) (hb_consumed hv + tableSizeLg2 s)) key c Hcg). cbn [hb_consumed hb_b] in IH. specialize (IH ltac:(lia) ltac:(lia) ltac:(lia)).
        unfold bind, on_child. destruct (getValue f w _ key c) as [r c']. destruct IH as (I1 & I2 & I3 & I4).
        assert (Hset : sgood (set_child (SShard c') (occupied_before (s_bf s) idx) s1)) by (apply set_good; [assumption|now right]).
        assert (Hfr : same_frame s (set_child (SShard c') (occupied_before (s_bf s) idx) s1)) by (destruct G3 as (? & ? & ?), (same_set s1 (SShard c') (occupied_before (s_bf s) idx)) as (? & ? & ?); split; [congruence|split; congruence]).
        destruct r as [o|e| |]; try contradiction; cbn [ret]; (split; [exact I|]); (split; [|split; assumption]); [|discriminate]. unfold ret. congruence.
    Qed.
    Lemma find_ok w key s : sgood s -> let (r, s') := Find hash w key s in sane r /\ r <> Ok None /\ sgood s'.
    Proof.
      intros Hs. unfold Find, hfuel, newHashBits. pose proof (getValue_ok (S (8 * length (hash key))) w (mkHB (hash key) 0) key s Hs) as G. cbn [hb_consumed hb_b] in G. unfold zlen in G. specialize (G ltac:(lia) ltac:(lia) ltac:(lia)).
      destruct (getValue _ w _ key s). tauto.
    Qed.
  End Find.

  (** *** ForEachLink *)
  Definition slot_height (x : slot shard) : nat := match x with SLink l => nheight (lto l) | SShard c => sheight c end.
  Lemma sheight_eq s : sheight s = S (fold_right (fun x m => Nat.max (slot_height x) m) O (s_slots s)).
  Proof. destruct s. reflexivity. Qed.
  Lemma slot_le x l : In x l -> (slot_height x <= fold_right (fun x m => Nat.max (slot_height x) m) O l)%nat.
  Proof. induction l as [|y l IH]; intros []; cbn [fold_right]; [subst; lia|]. specialize (IH H). lia. Qed.

  Definition low (f : nat) (i : Z) (s : shard) : Prop := forall j x, nth_error (s_slots s) j = Some x -> i <= Z.of_nat j -> (slot_height x <= f)%nat.
  Lemma low_set f i x s : low f i s -> 0 <= i -> low f (i + 1) (set_child x i s).
  Proof.
    intros H Hi j y Hj Hle. unfold set_child, set_slots in Hj. cbn [s_slots] in Hj. rewrite nth_error_set_nth in Hj. destruct (Z.to_nat i =? j)%nat eqn:E; [lia|]. apply (H j y Hj). lia.
  Qed.
  Lemma get_low w s i c f : sgood s -> 0 <= i -> low f i s -> fst (get_child w i s) = Ok c -> isValueNode c = false -> (sheight c <= f)%nat /\ low f (i + 1) (snd (get_child w i s)).
  Proof.
    intros Hs Hi Hl. unfold get_child, check. destruct ((zlen (s_slots s) <=? i) || (i <? 0)) eqn:E; [discriminate|].
    assert (Hup : low f (i + 1) s) by (intros j x Hj Hle; apply (Hl j x Hj); lia).
    destruct (nth_error (s_slots s) (Z.to_nat i)) as [x|] eqn:En; [|discriminate]. pose proof (Hl _ _ En ltac:(lia)) as Hx. pose proof Hs as Hs'. apply sgood_iff in Hs' as (_ & _ & _ & HF). rewrite Forall_forall in HF. specialize (HF x (nth_error_In _ _ En)).
    destruct x as [l|c0]; cbn [slot_ok slot_height] in *.
    - destruct (child_ok w s l Hs HF) as [A B]. destruct (loadChild w s l) as [c1|e| |]; try discriminate. cbn [fst snd]. intros [= ->] Hv. split; [pose proof (proj2 (B c eq_refl) Hv); lia|]. now apply low_set.
    - cbn [fst snd]. intros [= ->] _. auto.
  Qed.
  Lemma get_low' w s i c f : 0 <= i -> low f i s -> fst (get_child w i s) = Ok c -> low f (i + 1) (snd (get_child w i s)).
  Proof.
    intros Hi Hl. unfold get_child. assert (Hup : low f (i + 1) s) by (intros j x Hj Hle; apply (Hl j x Hj); lia). destruct (check s i); try discriminate. destruct (nth_error (s_slots s) (Z.to_nat i)) as [[l|c0]|]; try discriminate; [|auto].
    destruct (loadChild w s l); try discriminate. intros _. cbn [snd]. now apply low_set.
  Qed.
  Lemma set_low f i j x s : low f i s -> j < i -> 0 <= j -> low f i (set_child x j s).
  Proof. intros H Hj H0 k y Hk Hle. unfold set_child, set_slots in Hk. cbn [s_slots] in Hk. rewrite nth_error_set_nth in Hk. destruct (Z.to_nat j =? k)%nat eqn:E; [lia|]. now apply (H k y Hk). Qed.

  Definition walked (x : res unit * (shard * list link)) : Prop := let '(r, (s', _)) := x in sane r /\ sgood s'.
  Lemma each_ok f w cb : (forall s acc, sgood s -> (sheight s <= f)%nat -> walked (walkTrie f w cb (s, acc))) ->
    forall m i s acc, sgood s -> 0 <= i -> low f i s -> walked (walk_each f w cb m i (s, acc)).
  Proof.
    intros HI. induction m as [|m IH]; intros i s acc Hs Hi Hl; cbn [walk_each]; fold (walk_each f w cb); [split; [exact I|assumption]|].
    destruct (get_ok w s i Hs Hi) as (G1 & G2 & G3 & G4). pose proof (get_low w s i) as G5. pose proof (get_low' w s i) as G6. destruct (get_child w i s) as [r s1]. cbn [fst snd] in *. destruct r as [c|e| |]; try contradiction; [|split; [exact I|assumption]].
    destruct (G4 c eq_refl) as [Hc _]. specialize (G6 c f Hi Hl eq_refl). destruct (isValueNode c) eqn:Ev.
    - destruct (s_val c) as [v|] eqn:Es; [|unfold isValueNode in Ev; rewrite Es in Ev; destruct (s_key c); discriminate].
      assert (Hset : sgood (set_child (SShard (set_val (Some (mkLink (s_key c) (lsize v) (lto v))) c)) i s1)).
      { apply set_good; [assumption|]. left. unfold isValueNode in *. destruct c. cbn [set_val s_key s_val] in *. now destruct key. }
      destruct (cb acc _); [split; [exact I|assumption]|]. apply IH; [assumption|lia|]. apply set_low; [assumption|lia|lia].
    - destruct Hc as [|Hc]; [congruence|]. destruct (G5 c f Hs Hi Hl eq_refl Ev) as [G7 _]. pose proof (HI c acc Hc G7) as S. destruct (walkTrie f w cb (c, acc)) as [r [c' acc']]. destruct S as [S1 S2].
      assert (Hset : sgood (set_child (SShard c') i s1)) by (apply set_good; [assumption|now right]). destruct r as [u|e| |]; try contradiction; [|split; [exact I|assumption]].
      apply IH; [assumption|lia|]. apply set_low; [assumption|lia|lia].
  Qed.
  Lemma walk_ok f w cb : forall s acc, sgood s -> (sheight s <= f)%nat -> walked (walkTrie f w cb (s, acc)).
  Proof.
    induction f as [|f IH]; intros s acc Hs Hh; [rewrite sheight_eq in Hh; lia|]. rewrite walkTrie_eq. cbn [fst]. apply each_ok; [exact IH|assumption|lia|]. intros j x Hj _. rewrite sheight_eq in Hh. pose proof (slot_le x _ (nth_error_In _ _ Hj)). lia.
  Qed.
  Lemma each_link_ok w cb s acc : sgood s -> walked (ForEachLink w cb (s, acc)).
  Proof. intros Hs. unfold ForEachLink. cbn [fst]. now apply walk_ok. Qed.

  (** *** Parallel enumeration *)
  Definition job_ok (j : job) : Prop := Forall node_ok (j_cids j) /\ Forall sgood (j_shards j).
  Definition jres_ok (r : res job) : Prop := sane r /\ forall j, r = Ok j -> job_ok j.
  Lemma slots_ok s slots : sgood s -> Forall (slot_ok (s_size s)) slots -> jres_ok (snd (walkSlots s slots)).
  Proof.
    intros Hs. induction 1 as [|x r Hx HF IH]; cbn [walkSlots]; [split; [exact I|]; intros j [= <-]; split; constructor|]. destruct x as [l|c]; cbn [slot_ok] in Hx.
    - pose proof (child_ok (mkWorld (fun _ => true) [] 0 (fun _ => true) (fun _ => true)) s l Hs Hx) as [A _]. unfold loadChild in A. unfold childLinkType in *. change (maxpadlen s) with (digits (s_size s)) in *.
      destruct (length (lname l) <? digits (s_size s))%nat eqn:E1; [split; [exact I|discriminate]|]. cbn [rbind] in A. destruct (length (lname l) =? digits (s_size s))%nat eqn:E2; cbn [negb] in *.
      + destruct (walkSlots s r) as [ls j]. cbn [snd] in *. destruct IH as [I1 I2]. destruct j as [j|e| |]; try contradiction; cbn [rmap]; [|split; [exact I|discriminate]]. split; [exact I|]. intros j' [= <-]. destruct (I2 j eq_refl) as [J1 J2]. split; cbn [j_cids j_shards]; [constructor; [|assumption]|assumption].
        apply Hx. now apply Nat.eqb_eq.
      + destruct (makeShardValue s l) as [sv|e| |]; try contradiction; [|split; [exact I|discriminate]]. destruct (walkSlots s r) as [ls j]. exact IH.
    - destruct (walkSlots s r) as [ls j]. cbn [snd] in IH. destruct (s_val c) as [v|] eqn:Ev; [exact IH|]. cbn [snd]. destruct IH as [I1 I2]. destruct j as [j|e| |]; try contradiction; cbn [rmap]; [|split; [exact I|discriminate]]. split; [exact I|]. intros j' [= <-]. destruct (I2 j eq_refl) as [J1 J2].
      split; cbn [j_cids j_shards]; [assumption|constructor; [|assumption]]. destruct Hx as [Hx|Hx]; [|assumption]. unfold isValueNode in Hx. rewrite Ev in Hx. destruct (s_key c); discriminate.
  Qed.
  Lemma children_ok s : sgood s -> jres_ok (snd (walkChildren s)).
  Proof. intros Hs. unfold walkChildren. apply slots_ok; [assumption|]. now apply sgood_iff in Hs as (_ & _ & _ & HF). Qed.
  Lemma fetched_ok w n : node_ok n -> jres_ok (snd (walkFetched w n)).
  Proof.
    intros Hn. unfold walkFetched, dserv_get. destruct (stored w n && w_getok w n); [|split; [exact I|discriminate]]. destruct (load_ok n Hn) as [A B]. destruct (NewHamtFromDag n) as [s|e| |]; try contradiction; [|split; [exact I|discriminate]]. apply children_ok. now apply B.
  Qed.
  Definition cont_ok (k : cont) : Prop := match k with KShards ss cs => Forall sgood ss /\ Forall node_ok cs | KFetch todo => Forall node_ok todo end.
  Definition worker_ok (x : worker) : Prop :=
    match x with
    | Shards ss cs => Forall sgood ss /\ Forall node_ok cs
    | Emit _ r k => jres_ok r /\ cont_ok k
    | Send j k => job_ok j /\ cont_ok k
    | Visit cs todo => Forall node_ok cs /\ Forall node_ok todo
    | Fetch todo => Forall node_ok todo
    | Idle | Finish | Exited => True
    end.
  Definition walk_inv (s : walk) : Prop := Forall worker_ok (w_workers s) /\ Forall job_ok (w_queue s) /\ forall j, w_next s = Some j -> job_ok j.
  Lemma pop_ok q : Forall job_ok q -> Forall job_ok (snd (pop q)) /\ forall j, fst (pop q) = Some j -> job_ok j.
  Proof. destruct 1; cbn [pop fst snd]; [split; [constructor|discriminate]|]. split; [assumption|]. now intros j [= <-]. Qed.
  Lemma push_ok j nx q : job_ok j -> Forall job_ok q -> (forall x, nx = Some x -> job_ok x) -> Forall job_ok (snd (push j nx q)) /\ forall x, fst (push j nx q) = Some x -> job_ok x.
  Proof. intros Hj Hq Hn. destruct nx as [x|]; cbn [push fst snd]; [split; [apply Forall_app; auto|assumption]|]. split; [assumption|]. now intros x [= <-]. Qed.
  Lemma resume_ok k : cont_ok k -> worker_ok (resume k).
  Proof. now destruct k. Qed.
  Lemma workers_upd a x y b : Forall worker_ok (a ++ x :: b) -> (worker_ok x -> worker_ok y) -> Forall worker_ok (a ++ y :: b).
  Proof. rewrite !Forall_app, !Forall_cons_iff. tauto. Qed.
  Lemma workers_at a x b : Forall worker_ok (a ++ x :: b) -> worker_ok x.
  Proof. rewrite Forall_app, Forall_cons_iff. tauto. Qed.
  Lemma step_ok w mayc s t : wstep w mayc s t -> walk_inv s -> walk_inv t.
  Proof.
    intros H (I1 & I2 & I3). destruct H; cbn [w_workers w_queue w_next] in *; unfold walk_inv; cbn [w_workers w_queue w_next];
      first [ (* unchanged queue *) split; [|split; [exact I2|exact I3]] | idtac ].
    all: try (eapply workers_upd; [exact I1|]; cbn [worker_ok]; tauto).
    all: try exact I1.
    - pose proof (pop_ok q I2) as [P1 P2]. split; [|auto]. eapply workers_upd; [exact I1|]. intros _. destruct (I3 j eq_refl). split; assumption.
    - eapply workers_upd; [exact I1|]. cbn [worker_ok cont_ok]. intros [H1 H2]. inversion H1; subst. split; [now apply children_ok|auto].
    - eapply workers_upd; [exact I1|]. cbn [worker_ok]. intros [H1 H2]. split; [assumption|constructor].
    - eapply workers_upd; [exact I1|]. cbn [worker_ok]. intros [[_ H1] H2]. auto.
    - pose proof (workers_at _ _ _ I1) as [Hj Hk]. pose proof (push_ok j nx q Hj I2 I3) as [P1 P2]. split; [|auto]. eapply workers_upd; [exact I1|]. intros _. now apply resume_ok.
    - eapply workers_upd; [exact I1|]. cbn [worker_ok]. intros [H1 H2]. inversion H1; subst. split; [assumption|]. apply Forall_app. auto.
    - eapply workers_upd; [exact I1|]. cbn [worker_ok]. intros [H1 H2]. inversion H1; subst. auto.
    - eapply workers_upd; [exact I1|]. cbn [worker_ok cont_ok]. intros H1. apply Forall_app in H1 as [H1 H2]. inversion H2; subst. split; [now apply fetched_ok|]. apply Forall_app. auto.
  Qed.
  Lemma enum_ok w mayc m s t : sgood s -> wsteps w mayc (walk_start m s) t -> ~ walk_crashed t.
  Proof.
    intros Hs H. assert (HI : walk_inv t).
    { remember (walk_start m s) as u. induction H as [|u' t' v H IH H2]; subst.
      - split; [apply Forall_forall; intros x Hx; apply repeat_spec in Hx; now subst|]. split; [constructor|]. intros j [= <-]. split; cbn [j_cids j_shards]; repeat constructor; assumption.
      - eapply step_ok; [exact H2|]. now apply IH. }
    intros (k & r & Hi & Hr). destruct HI as [HI _]. rewrite Forall_forall in HI. destruct (HI _ Hi) as [[Hsane _] _]. destruct Hr; subst; exact Hsane.
  Qed.
End Inv.

(** *** Writing *)
Section Strict.
  Variable W : Z.
  Notation sgood := (sgood (Some W)).
  Notation slot_ok := (slot_ok (Some W)).
  Variables (hash : bytes -> bytes) (n : nat).
  Hypothesis hash_len : forall k, length (hash k) = n.

  Lemma good_new s : sgood s -> exists c, NewShard (s_size s) = Ok c /\ sgood c /\ forall b, sgood (SetCidBuilder b c).
  Proof.
    intros Hs. apply sgood_iff in Hs as (Hv & _ & [Hw _] & _). eexists. unfold NewShard, NewShardValue. rewrite (valid_make _ _ _ Hv). split; [reflexivity|].
    assert (G : forall b, sgood (mkShard (s_size s) b (zeros (s_size s)) [] None [])).
    { intros b. apply sgood_iff. cbn [s_size s_bf s_slots]. split; [assumption|]. split; [destruct (proj1 (valid_lg _) Hv) as (lg & G1 & G2 & _); now apply (zeros_len lg)|]. split; [|constructor]. split; [assumption|]. unfold zeros. rewrite bits_zeros. apply Z.le_refl. }
    split; [apply G|]. intros b. apply G.
  Qed.
  Lemma Forall_ztake {A} (P : A -> Prop) i l : Forall P l -> Forall P (ztake i l).
  Proof. intros H. unfold ztake. rewrite <- (firstn_skipn (Z.to_nat i) l) in H. now apply Forall_app in H. Qed.
  Lemma Forall_zdrop {A} (P : A -> Prop) i l : Forall P l -> Forall P (zdrop i l).
  Proof. intros H. unfold zdrop. rewrite <- (firstn_skipn (Z.to_nat i) l) in H. now apply Forall_app in H. Qed.
  Lemma split_len {A} (i j : Z) (l : list A) : 0 <= i -> i <= j -> j <= zlen l -> zlen (ztake i l) + zlen (zdrop j l) = zlen l - (j - i).
  Proof. intros. unfold ztake, zdrop, zlen in *. rewrite firstn_length, skipn_length. lia. Qed.

  Lemma insert_ok key value idx s : sgood s -> key <> [] -> 0 <= idx < s_size s -> occupied (s_bf s) idx = false ->
    sane (insert key value idx s) /\ forall s', insert key value idx s = Ok s' -> sgood s'.
  Proof.
    intros Hs Hk Hi Ho. pose proof Hs as Hs'. apply sgood_iff in Hs' as (Hv & Hb & [Hw Hn] & HF). destruct value as [l|]; [|split; [exact I|discriminate]]. cbn [insert]. unfold sliceIndex. rewrite bf_before_ok by lia. cbn [rbind].
    pose proof (before_bits (s_bf s) idx ltac:(lia)) as [B1 B2]. rewrite Ho in B2.
    replace (NewShardValue 256 key (Some (mkLink (linkNamePrefix s idx ++ key) (lsize l) (lto l)))) with (Ok (mkShard 256 None (zeros 256) key (Some (mkLink (linkNamePrefix s idx ++ key) (lsize l) (lto l))) [])).
    2:{ unfold NewShardValue. rewrite valid_make; [reflexivity|]. apply valid_lg. exists 8. split; [lia|]. split; reflexivity. }
    cbn [rbind]. replace (zlen (s_slots s) <? occupied_before (s_bf s) idx) with false by lia. destruct (bf_set_ok (s_bf s) idx ltac:(lia)) as (b & E & _). rewrite E. cbn [rbind]. split; [exact I|]. intros s' [= <-].
    destruct (bits_set (s_bf s) idx b ltac:(lia) Ho E) as [E1 E2]. apply sgood_iff. unfold set_slots. cbn [s_size s_bf s_slots]. split; [assumption|]. split; [lia|]. split.
    - split; [assumption|]. pose proof (split_len (occupied_before (s_bf s) idx) (occupied_before (s_bf s) idx) (s_slots s) ltac:(lia) ltac:(lia) ltac:(lia)) as Q. unfold zlen in *. rewrite app_length. cbn [length]. lia.
    - apply Forall_app. split; [now apply Forall_ztake|]. constructor; [|now apply Forall_zdrop]. left. unfold isValueNode. cbn [s_key s_val]. destruct key; [congruence|reflexivity].
  Qed.
  Lemma rm_ok idx s : sgood s -> 0 <= idx < s_size s -> occupied (s_bf s) idx = true ->
    sane (rm idx s) /\ forall s', rm idx s = Ok s' -> sgood s'.
  Proof.
    intros Hs Hi Ho. pose proof Hs as Hs'. apply sgood_iff in Hs' as (Hv & Hb & [Hw Hn] & HF). unfold rm, sliceIndex. rewrite bf_before_ok by lia. cbn [rbind].
    pose proof (before_bits (s_bf s) idx ltac:(lia)) as [B1 B2]. rewrite Ho in B2. unfold check. replace (zlen (s_slots s) <=? occupied_before (s_bf s) idx) with false by lia. replace (occupied_before (s_bf s) idx <? 0) with false by lia. cbn [orb rbind].
    destruct (bf_unset_ok (s_bf s) idx ltac:(lia)) as (b & E & _). rewrite E. cbn [rbind]. split; [exact I|]. intros s' [= <-]. destruct (bits_unset (s_bf s) idx b ltac:(lia) Ho E) as [E1 E2]. apply sgood_iff. unfold set_slots. cbn [s_size s_bf s_slots]. split; [assumption|]. split; [lia|]. split.
    - split; [assumption|]. pose proof (split_len (occupied_before (s_bf s) idx) (occupied_before (s_bf s) idx + 1) (s_slots s) ltac:(lia) ltac:(lia) ltac:(lia)) as Q. unfold zlen in *. rewrite app_length. lia.
    - apply Forall_app. split; [now apply Forall_ztake|now apply Forall_zdrop].
  Qed.

  Definition swapped (x : res (option link) * shard) : Prop := let (r, s') := x in sane r /\ sgood s'.
  Lemma upd_swapped f (o : option link) s : sgood s -> sane (f s) -> (forall s', f s = Ok s' -> sgood s') -> swapped ((do _ <- upd_shard f ;; ret o) s).
  Proof. intros Hs H1 H2. unfold bind, upd_shard, ret. destruct (f s); try contradiction; (split; [exact I|]); auto. Qed.

  Lemma swap_ok fuel : forall w hv key value s, sgood s -> key <> [] -> length (hb_b hv) = n -> 0 <= hb_consumed hv -> 8 * Z.of_nat n - hb_consumed hv < Z.of_nat fuel -> hb_consumed hv <= 8 * Z.of_nat n ->
    swapped (swapValue hash fuel w hv key value s).
  Proof.
    induction fuel as [|f IH]; intros w hv key value s Hs Hk Hl Hc Hf Hle; [lia|]. cbn [swapValue]. unfold bind at 1, get_shard. unfold bind at 1, lift at 1. destruct (next_sane _ hash s hv Hs Hc) as [(idx & E & Hi & Hb & H3)|E]; rewrite E; [|split; [exact I|assumption]].
    pose proof Hs as Hs'. apply sgood_iff in Hs' as (_ & Hbf & [Hsz Hn] & _). unfold has. rewrite bf_bit_ok by lia. unfold bind at 1, lift at 1. destruct (occupied (s_bf s) idx) eqn:Eo; cbn [negb].
    2:{ destruct (insert_ok key value idx s Hs Hk Hi Eo) as [A B]. now apply upd_swapped. }
    unfold sliceIndex. rewrite bf_before_ok by lia. unfold bind at 1, lift at 1. pose proof (before_bits (s_bf s) idx ltac:(lia)) as [Hp Hq]. rewrite Eo in Hq. set (i := occupied_before (s_bf s) idx) in *. destruct (get_ok _ w s i Hs Hp) as (G1 & G2 & G3 & G4).
    unfold bind at 1. destruct (get_child w i s) as [r s1]. cbn [fst snd] in *. destruct r as [c|e| |]; try contradiction; [|split; [exact I|assumption]].
    destruct (G4 c eq_refl) as [Hcok _]. destruct G3 as (F1 & F2 & F3). unfold zlen in Hb. rewrite Hl in Hb.
    assert (Hrm : forall s2, sgood s2 -> s_size s2 = s_size s -> s_bf s2 = s_bf s -> forall o, swapped ((do _ <- upd_shard (rm idx) ;; ret o) s2)).
    { intros s2 Hg Q1 Q2 o. destruct (rm_ok idx s2 Hg ltac:(lia) ltac:(congruence)) as [A B]. now apply upd_swapped. }
    assert (Hset : forall s2 x, sgood s2 -> slot_ok (s_size s2) x -> forall o, swapped ((do _ <- upd_shard (fun s => Ok (set_child x i s)) ;; ret o) s2)).
    { intros s2 x Hg Hx o. apply upd_swapped; [assumption|exact I|]. intros s' [= <-]. now apply set_good. }
    destruct (isValueNode c) eqn:Ev.
    - destruct (bytes_eqb (s_key c) key).
      + destruct value as [l|]; [|now apply Hrm]. apply Hset; [assumption|]. left. unfold isValueNode in *. destruct c. cbn [set_val s_key s_val] in *. destruct key0; [discriminate|reflexivity].
      + destruct value as [l|]; [|split; [exact I|assumption]]. destruct (good_new s Hs) as (fr & En & _ & Hfr). rewrite En. unfold bind at 1, lift at 1. cbn [hb_consumed].
        assert (Hck : s_key c <> []) by (unfold isValueNode in Ev; destruct (s_key c); [discriminate|congruence]).
        pose proof (IH w (mkHB (hb_b hv) (hb_consumed hv + tableSizeLg2 s)) key (Some l) (SetCidBuilder (s_builder s) fr) (Hfr _) Hk Hl ltac:(cbn [hb_consumed]; lia) ltac:(cbn [hb_consumed]; lia) ltac:(cbn [hb_consumed]; lia)) as S1.
        destruct (swapValue hash f w _ key (Some l) _) as [r1 f1]. destruct S1 as [S1 S2]. destruct r1 as [o1|e| |]; try contradiction; [|split; [exact I|assumption]].
        pose proof (IH w (newConsumedHashBits hash (s_key c) (hb_consumed hv + tableSizeLg2 s)) (s_key c) (s_val c) f1 S2 Hck (hash_len _) ltac:(cbn [newConsumedHashBits hb_consumed]; lia) ltac:(cbn [newConsumedHashBits hb_consumed]; lia) ltac:(cbn [newConsumedHashBits hb_consumed]; lia)) as S3.
        destruct (swapValue hash f w _ (s_key c) (s_val c) f1) as [r2 f2]. destruct S3 as [S3 S4]. destruct r2 as [o2|e| |]; try contradiction; [|split; [exact I|assumption]].
        apply Hset; [assumption|now right].
    - destruct Hcok as [|Hcg]; [congruence|]. pose proof (IH w (mkHB (hb_b hv) (hb_consumed hv + tableSizeLg2 s)) key value c Hcg Hk Hl ltac:(cbn [hb_consumed]; lia) ltac:(cbn [hb_consumed]; lia) ltac:(cbn [hb_consumed]; lia)) as S.
      unfold bind at 1, on_child. destruct (swapValue hash f w _ key value c) as [r c']. destruct S as [S1 S2].
      assert (Hg : sgood (set_child (SShard c') i s1)) by (apply set_good; [assumption|now right]).
      destruct (same_set s1 (SShard c') i) as (E1 & E2 & _).
      destruct r as [o|e| |]; try contradiction; [|split; [exact I|assumption]]. destruct value as [l|]; [split; [exact I|assumption]|].
      apply sgood_iff in S2 as (_ & _ & [Hcs _] & HFc). destruct (s_slots c') as [|x [|y z]]; [apply Hrm; [assumption|congruence|congruence]| |destruct x; split; try exact I; assumption].
      inversion HFc; subst. destruct x as [sl|sc]; cbn [RobustProofs.slot_ok] in *.
      + unfold bind at 1, lift at 1. unfold childLinkType. change (maxpadlen c') with (digits (s_size c')). destruct (length (lname sl) <? digits (s_size c'))%nat; [split; [exact I|assumption]|]. destruct (negb _); [|split; [exact I|assumption]].
        apply Hset; [assumption|]. cbn [RobustProofs.slot_ok]. replace (s_size (set_child (SShard c') i s1)) with (s_size c') by congruence. assumption.
      + destruct (isValueNode sc) eqn:Es; [|split; [exact I|assumption]]. apply Hset; [assumption|now left].
  Qed.
  Lemma top_ok w key value s : sgood s -> key <> [] -> swapped (swapValue hash (hfuel hash key) w (newHashBits hash key) key value s).
  Proof. intros Hs Hk. apply swap_ok; [assumption|assumption|apply hash_len|cbn; lia| |cbn; lia]. unfold hfuel. rewrite hash_len. cbn [newHashBits hb_consumed]. lia. Qed.

  (** *** Node *)
  Lemma regular_seal m : regular W m -> regular W (seal m).
  Proof.
    destruct m as [p d|p d ls]; [auto|]. cbn [seal]. intros H m W' bm ls' Hm Hs. pose proof (lsort_perm ls) as Pm.
    inversion Hm as [|? W1 bm1 ls1 l1 ? A1 A2 A3 A4]; subst.
    - inversion Hs; subst. destruct (H (NProto p d ls) (getFanout fsn) (getData fsn) ls (Sub_here _)) as (Q1 & Q2 & Q3 & Q4); [econstructor; eauto|]. split; [assumption|]. split; [assumption|]. split; [unfold zlen in *; now rewrite (Permutation_length Pm)|]. rewrite Forall_forall in *. intros l Hl. apply Q4. now apply (Permutation_in _ Pm).
    - apply (H m W' bm ls'); [|assumption]. inversion A1; subst. eapply Sub_link with (l := l1) (ls := ls); [econstructor; eauto|now apply (Permutation_in _ Pm)|assumption|assumption].
  Qed.
  Lemma regular_raw p d : regular W (NRaw p d).
  Proof. intros m W' bm ls Hm Hs. inversion Hm as [|? ? ? ? ? ? A]; subst; [inversion Hs|inversion A]. Qed.
  Lemma regular_node p data bm ls fsn : FSNodeFromBytes data = Ok fsn -> getType fsn = THAMTShard -> getFanout fsn = W -> getData fsn = bm -> 8 * zlen bm <= W -> bits bm <= zlen ls ->
    Forall (fun l => (digits W <= length (lname l))%nat /\ (length (lname l) = digits W -> regular W (lto l))) ls -> regular W (NProto p data ls).
  Proof.
    intros H1 H2 H3 H4 H5 H6 HF m W' bm' ls' Hm Hs. inversion Hm as [|? W1 bm1 ls1 l1 ? A1 A2 A3 A4]; subst.
    - inversion Hs; subst. rewrite H1 in *. match goal with H : Ok _ = Ok _ |- _ => injection H as <- end. split; [reflexivity|]. split; [assumption|]. split; [assumption|]. eapply Forall_impl; [|exact HF]. now intros l [? _].
    - rewrite Forall_forall in HF. inversion A1; subst. rewrite H1 in *. match goal with H : Ok _ = Ok _ |- _ => injection H as <- end. destruct (HF l1 A2) as [_ Q]. exact (Q A3 m W' bm' ls' A4 Hs).
  Qed.
  Definition written (x : res node * world) : Prop := let (r, _) := x in sane r /\ forall m, r = Ok m -> regular W m.
  Lemma go_ok slots : Forall (fun x => match x with SLink _ => True | SShard c => sgood c -> forall w, written (Node c w) end) slots -> Forall (slot_ok W) slots ->
    forall idxs w, Forall (fun i => 0 <= i < W) idxs -> (length idxs <= length slots)%nat ->
    let (r, _) := node_go (digits W) slots idxs w in sane r /\ forall ls, r = Ok ls -> length ls = length idxs /\ Forall (fun l => (digits W <= length (lname l))%nat /\ (length (lname l) = digits W -> regular W (lto l))) ls.
  Proof.
    intros HI HF. induction HF as [|x r Hx HF IH]; intros [|idx ir] w Hr Hlen; cbn [length] in *; try lia; [split; [exact I|]; intros ls [= <-]; split; [reflexivity|constructor]|split; [exact I|]; intros ls [= <-]; split; [reflexivity|constructor]|].
    apply Forall_cons_iff in HI as [HIx HI]. apply Forall_cons_iff in Hr as [Hr0 Hr]. cbn [node_go]. fold (node_go (digits W)). destruct (slot_names W idx Hr0) as (_ & N2 & _). fold (digits W) in N2.
    assert (Hrest : forall w l, (digits W <= length (lname l))%nat -> (length (lname l) = digits W -> regular W (lto l)) ->
      let (q, _) := (do r1 <- node_go (digits W) r ir ;; ret (l :: r1)) w in sane q /\ forall ls, q = Ok ls -> length ls = S (length ir) /\ Forall (fun l => (digits W <= length (lname l))%nat /\ (length (lname l) = digits W -> regular W (lto l))) ls).
    { intros w0 l L1 L2. specialize (IH HI ir w0 Hr ltac:(lia)). unfold bind, ret. destruct (node_go (digits W) r ir w0) as [q w1]. destruct IH as [Q1 Q2]. destruct q as [ls|e| |]; try contradiction; [|split; [exact I|discriminate]]. split; [exact I|]. intros ls' [= <-]. destruct (Q2 ls eq_refl) as [Q3 Q4]. split; [cbn [length]; congruence|]. constructor; auto. }
    destruct x as [l|c]; cbn [RobustProofs.slot_ok] in Hx.
    - destruct Hx as [Hx1 Hx2]. cbn [node_ok] in Hx1. replace (length (lname l) <? digits W)%nat with false by (symmetry; apply Nat.ltb_ge; assumption). unfold bind at 1. unfold ret at 1. apply Hrest; cbn [lname lto]; rewrite app_length, N2, skipn_length; [lia|]. intros Q. apply Hx1. lia.
    - destruct (isValueNode c) eqn:Ev.
      + destruct (s_val c) as [v|] eqn:Es; [|unfold isValueNode in Ev; rewrite Es in Ev; destruct (s_key c); discriminate]. unfold bind at 1. unfold bind at 1. unfold ret at 1. unfold ret at 1. apply Hrest; cbn [lname lto]; rewrite app_length, N2; [lia|]. unfold isValueNode in Ev. destruct (s_key c); [discriminate|]. cbn [length]. lia.
      + destruct Hx as [|Hx]; [congruence|]. specialize (HIx Hx w). unfold bind at 1. unfold bind at 1. unfold bind at 1. destruct (Node c w) as [q w1]. destruct HIx as [Q1 Q2]. destruct q as [nd|e| |]; try contradiction; [|split; [exact I|discriminate]].
        unfold bind at 1. destruct (dserv_add_spec nd None w1) as (r2 & w2 & -> & _ & _ & D). destruct D as [(-> & _)|(-> & _)]; [|split; [exact I|discriminate]]. unfold ret at 1. unfold ret at 1. apply Hrest; cbn [lname lto make_link]; rewrite app_length, N2; [lia|]. intros _. apply regular_seal. now apply Q2.
  Qed.
  Lemma node_ok' k : forall s, (sheight s <= k)%nat -> sgood s -> forall w, written (Node s w).
  Proof.
    induction k as [|k IH]; intros s Hh Hs w; [rewrite sheight_eq in Hh; lia|]. rewrite Node_eq. pose proof Hs as Hs'. apply sgood_iff in Hs' as (Hv & Hb & [Hw Hn] & HF). destruct (proj1 (valid_lg _) Hv) as (lg & G1 & G2 & _). pose proof (W_bounds lg _ G1 G2) as HWb.
    unfold bind at 1, lift at 1. destruct (set_bits_spec (s_bf s) (Z.to_nat (s_size s)) 0 ltac:(lia) ltac:(lia)) as (idxs & E & _ & Hin). rewrite E.
    pose proof (set_bits_len _ _ _ _ (Z.le_refl 0) E ltac:(lia)) as Hlen. replace (Z.to_nat (s_size s)) with (8 * length (s_bf s))%nat in Hlen by (unfold zlen in *; lia). change (Z.to_nat 0) with O in Hlen.
    assert (Hbits : Z.of_nat (length idxs) = bits (s_bf s)) by (rewrite bits_seq; unfold zlen; congruence).
    rewrite Hw in *. fold (digits W). unfold bind at 1.
    pose proof (go_ok (s_slots s)) as G. assert (GI : Forall (fun x => match x with SLink _ => True | SShard c => sgood c -> forall w, written (Node c w) end) (s_slots s)).
    { apply Forall_forall. intros [l|c] Hx; [exact I|]. intros Hg w'. apply IH; [|assumption]. rewrite sheight_eq in Hh. pose proof (slot_le _ _ Hx) as Q. cbn [slot_height] in Q. lia. }
    specialize (G GI HF idxs w). assert (GR : Forall (fun i => 0 <= i < W) idxs) by (apply Forall_forall; intros i Hi; apply Hin in Hi; lia). specialize (G GR ltac:(unfold zlen in *; lia)).
    destruct (node_go (digits W) (s_slots s) idxs w) as [r w1]. destruct G as [Q1 Q2]. destruct r as [ls|e| |]; try contradiction; [|split; [exact I|discriminate]]. destruct (Q2 ls eq_refl) as [Q3 Q4].
    assert (EW : u64 W = W) by (unfold u64, two64; apply Z.mod_small; lia). rewrite EW.
    destruct (bf_bytes_zero (s_bf s)) as [z Hz].
    assert (Hz8 : 8 * zlen (obytes (bf_bytes (s_bf s))) <= W) by (rewrite <- Hb; rewrite Hz at 2; unfold zlen; rewrite app_length; lia).
    assert (Hzb : bits (obytes (bf_bytes (s_bf s))) = bits (s_bf s)) by (rewrite Hz at 2; now rewrite bits_pad).
    destruct (HAMTShardData_decode (bf_bytes (s_bf s)) W HashMurmur3) as (b & Eb & Hd); [unfold two64; lia|unfold in_u64, two64; lia|unfold in_u64, HashMurmur3, two64; lia|].
    unfold bind at 1, lift at 1. rewrite Eb. unfold bind. match goal with |- context [dserv_add ?x None w1] => destruct (dserv_add_spec x None w1) as (r2 & w2 & -> & _ & _ & D) end. destruct D as [(-> & _)|(-> & _)]; [|split; [exact I|discriminate]].
    split; [exact I|]. intros m [= <-]. apply (regular_seal (NProto _ b ls)). eapply regular_node with (bm := obytes (bf_bytes (s_bf s))).
    - unfold FSNodeFromBytes. rewrite Hd. reflexivity.
    - reflexivity.
    - reflexivity.
    - reflexivity.
    - assumption.
    - rewrite Hzb. unfold zlen. lia.
    - assumption.
  Qed.
  Lemma write_ok s w : sgood s -> written (Node s w).
  Proof. intros Hs. now apply (node_ok' (sheight s)). Qed.
End Strict.

(** *** Histories *)
Definition calm (h : list hobs) : Prop := Forall (fun o => sane (o_res o)) h.
Lemma exec_reads hash op s w : reads op -> sgood None s -> let '(r, (s', w')) := hexec hash op (s, w) in sane r /\ sgood None s'.
Proof.
  intros Hr Hs. destruct op; try contradiction; cbn [hexec].
  - pose proof (find_ok None hash w k s Hs) as F. destruct (Find hash w k s) as [r s']. destruct F as (F1 & F2 & F3). destruct r as [[l|]|e| |]; try contradiction; split; try exact I; assumption.
  - pose proof (each_link_ok None w (fun _ _ => None) s [] Hs) as F. destruct (ForEachLink w _ (s, [])) as [r [s' acc]]. destruct F as (F1 & F2). destruct r; try contradiction; split; try exact I; assumption.
Qed.
Lemma run_reads hash ops : forall s w h s' w', Forall reads ops -> sgood None s -> hrun hash ops (s, w) = (h, (s', w')) -> calm h /\ sgood None s'.
Proof.
  induction ops as [|op ops IH]; intros s w h s' w' Hr Hs; cbn [hrun]; [intros [= <- <- <-]; split; [constructor|assumption]|]. apply Forall_cons_iff in Hr as [Hr1 Hr].
  pose proof (exec_reads hash op s w Hr1 Hs) as E. destruct (hexec hash op (s, w)) as [v [s1 w1]]. destruct E as [E1 E2]. destruct (hrun hash ops (s1, w1)) as [os [s2 w2]] eqn:Er. intros [= <- <- <-]. destruct (IH _ _ _ _ _ Hr E2 Er). split; [constructor; assumption|assumption].
Qed.

Section Writes.
  Variables (hash : bytes -> bytes) (n : nat).
  Hypothesis hash_len : forall k, length (hash k) = n.
  Variable W : Z.
  Notation sgood := (sgood (Some W)).
  Lemma swap_top key nd s w : sgood s -> key <> [] -> let '(r, (s', _)) := Swap hash key nd (s, w) in sane r /\ sgood s'.
  Proof.
    intros Hs Hk. unfold Swap. destruct (dserv_add_spec nd None w) as (r2 & w2 & -> & _ & _ & D). destruct D as [(-> & _)|(-> & _)]; [|split; [exact I|assumption]].
    pose proof (top_ok W hash n hash_len w2 key (Some (make_link (linkNamePrefix s 0 ++ key) nd)) s Hs Hk) as T. destruct (swapValue _ _ _ _ _ _ _) as [r s1]. exact T.
  Qed.
  Lemma exec_writes op s w : hname op <> Some [] -> sgood s -> let '(r, (s', w')) := hexec hash op (s, w) in sane r /\ sgood s' /\ (forall m, r = Ok (VNode m) -> regular W m).
  Proof.
    intros Hn Hs. destruct op; cbn [hexec hname] in *.
    - unfold Set_, bind, ret. pose proof (swap_top k n0 s w Hs ltac:(intros ->; now apply Hn)) as F. destruct (Swap hash k n0 (s, w)) as [r [s' w']]. destruct F as [F1 F2]. destruct r; try contradiction; cbn [rmap]; (split; [exact I|]); (split; [assumption|discriminate]).
    - unfold SetLink, bind, get_shard, ret. pose proof (top_ok W hash n hash_len w k (Some (mkLink (linkNamePrefix s 0 ++ k) (lsize l) (lto l))) s Hs ltac:(intros ->; now apply Hn)) as F. destruct (swapValue _ _ _ _ _ _ _) as [r s']. destruct F as [F1 F2]. destruct r; try contradiction; cbn [rmap]; (split; [exact I|]); (split; [assumption|discriminate]).
    - pose proof (swap_top k n0 s w Hs ltac:(intros ->; now apply Hn)) as F. destruct (Swap hash k n0 (s, w)) as [r [s' w']]. destruct F as [F1 F2]. destruct r; try contradiction; cbn [rmap]; (split; [exact I|]); (split; [assumption|discriminate]).
    - unfold Remove, Take, bind, ret. pose proof (top_ok W hash n hash_len w k None s Hs ltac:(intros ->; now apply Hn)) as F. destruct (swapValue _ _ _ _ _ _ _) as [r s']. destruct F as [F1 F2]. destruct r; try contradiction; cbn [rmap]; (split; [exact I|]); (split; [assumption|discriminate]).
    - unfold Take. pose proof (top_ok W hash n hash_len w k None s Hs ltac:(intros ->; now apply Hn)) as F. destruct (swapValue _ _ _ _ _ _ _) as [r s']. destruct F as [F1 F2]. destruct r; try contradiction; cbn [rmap]; (split; [exact I|]); (split; [assumption|discriminate]).
    - pose proof (find_ok (Some W) hash w k s Hs) as F. destruct (Find hash w k s) as [r s']. destruct F as (F1 & F2 & F3). destruct r as [[l|]|e| |]; try contradiction; (split; [exact I|]); (split; [assumption|discriminate]).
    - pose proof (each_link_ok (Some W) w (fun _ _ => None) s [] Hs) as F. destruct (ForEachLink w _ (s, [])) as [r [s' acc]]. destruct F as (F1 & F2). destruct r; try contradiction; cbn [rmap]; (split; [exact I|]); (split; [assumption|discriminate]).
    - pose proof (write_ok W hash n hash_len s w Hs) as F. destruct (Node s w) as [r w']. destruct F as [F1 F2]. destruct r as [m|e| |]; try contradiction; cbn [rmap]; (split; [exact I|]); (split; [assumption|]); [|discriminate]. intros m' [= <-]. now apply F2.
    - pose proof (write_ok W hash n hash_len s w Hs) as F. destruct (Node s w) as [r w']. destruct F as [F1 F2]. destruct r as [m|e| |]; try contradiction; [|split; [exact I|]; split; [assumption|discriminate]]. destruct (load_ok (Some W) m (F2 m eq_refl)) as [L1 L2]. destruct (NewHamtFromDag m) as [s1|e| |]; try contradiction; (split; [exact I|]); (split; [|discriminate]); [apply (L2 s1 eq_refl)|assumption].
  Qed.
  Lemma run_writes ops : forall s w h s' w', named_ops ops -> sgood s -> hrun hash ops (s, w) = (h, (s', w')) ->
    calm h /\ (forall m, In (Ok (VNode m)) (map o_res h) -> regular W m) /\ sgood s'.
  Proof.
    induction ops as [|op ops IH]; intros s w h s' w' Hr Hs; cbn [hrun]; [intros [= <- <- <-]; split; [constructor|split; [intros m []|assumption]]|]. apply Forall_cons_iff in Hr as [Hr1 Hr].
    pose proof (exec_writes op s w Hr1 Hs) as E. destruct (hexec hash op (s, w)) as [v [s1 w1]]. destruct E as (E1 & E2 & E3). destruct (hrun hash ops (s1, w1)) as [os [s2 w2]] eqn:Er. intros [= <- <- <-]. destruct (IH _ _ _ _ _ Hr E2 Er) as (I1 & I2 & I3).
    split; [constructor; assumption|]. split; [|assumption]. intros m [Hm|Hm]; [now apply E3|now apply I2].
  Qed.
  Lemma new_good b s : valid_width W -> new_dir W b = Ok s -> sgood s.
  Proof.
    intros Hv. unfold new_dir, NewShard, NewShardValue. rewrite (valid_make _ _ _ Hv). cbn [rmap]. intros [= <-]. apply sgood_iff. unfold SetCidBuilder. cbn [s_size s_bf s_slots]. split; [assumption|]. split; [destruct (proj1 (valid_lg _) Hv) as (lg & G1 & G2 & _); now apply (zeros_len lg)|].
    split; [|constructor]. split; [reflexivity|]. unfold zeros. rewrite bits_zeros. apply Z.le_refl.
  Qed.
End Writes.

(** *** The statements *)
Lemma reading_ok hash n ops w : bitmaps_fit n -> Forall reads ops ->
  sane (NewHamtFromDag n) /\ forall s h s' w', NewHamtFromDag n = Ok s -> hrun hash ops (s, w) = (h, (s', w')) ->
  Forall (fun o => sane (o_res o)) h /\ (forall cb acc, sane (fst (ForEachLink w' cb (s', acc)))) /\ forall mayc m t, wsteps w' mayc (walk_start m s') t -> ~ walk_crashed t.
Proof.
  intros Hn Hr. destruct (load_ok None n Hn) as [A B]. split; [assumption|]. intros s h s' w' Hs Hh. destruct (B s Hs) as [Bg _]. destruct (run_reads hash ops _ _ _ _ _ Hr Bg Hh) as [C1 C2]. split; [assumption|]. split.
  - intros cb acc. pose proof (each_link_ok None w' cb s' acc C2) as F. destruct (ForEachLink w' cb (s', acc)) as [r [s1 a1]]. apply F.
  - intros mayc m t. now apply (enum_ok None).
Qed.
Lemma writing_ok hash k : (forall x, length (hash x) = k) -> forall W n ops w, regular W n -> named_ops ops ->
  sane (NewHamtFromDag n) /\ forall s h s' w', NewHamtFromDag n = Ok s -> hrun hash ops (s, w) = (h, (s', w')) ->
  Forall (fun o => sane (o_res o)) h /\ (forall m, In (Ok (VNode m)) (map o_res h) -> regular W m) /\
  (forall cb acc, sane (fst (ForEachLink w' cb (s', acc)))) /\ forall mayc m t, wsteps w' mayc (walk_start m s') t -> ~ walk_crashed t.
Proof.
  intros Hl W n ops w Hn Hr. destruct (load_ok (Some W) n Hn) as [A B]. split; [assumption|]. intros s h s' w' Hs Hh. destruct (B s Hs) as [Bg _]. destruct (run_writes hash k Hl W ops _ _ _ _ _ Hr Bg Hh) as (C1 & C2 & C3). split; [assumption|]. split; [assumption|]. split.
  - intros cb acc. pose proof (each_link_ok (Some W) w' cb s' acc C3) as F. destruct (ForEachLink w' cb (s', acc)) as [r [s1 a1]]. apply F.
  - intros mayc m t. now apply (enum_ok (Some W)).
Qed.
Lemma own_regular hash k : (forall x, length (hash x) = k) -> forall W b s w d n w', valid_width W -> reached hash W b s w d -> Node s w = (Ok n, w') -> regular W n.
Proof.
  intros Hl W b s w d n w' Hv (s0 & w0 & ops & h & E & HF & Er & _) HN. pose proof (new_good W b s0 Hv E) as G. destruct (run_writes hash k Hl W ops _ _ _ _ _ HF G Er) as (_ & _ & C3). pose proof (write_ok W hash k Hl s w C3) as F. rewrite HN in F. now apply F.
Qed.
