(** Facts about hash bits, slot names and bitmaps. *)
From Verif Require Import Base Dag HashBits Bitfield SpecHash.

(** ** Hash bits *)

Lemma byte_bits_length b : length (byte_bits b) = 8%nat.
Proof. reflexivity. Qed.

Definition all_bytes : list byte := map (fun n => z2b (Z.of_nat n)) (seq 0 256).
Lemma all_bytes_in b : In b all_bytes.
Proof.
  unfold all_bytes. rewrite in_map_iff. exists (Z.to_nat (b2z b)). pose proof (b2z_range b).
  split; [rewrite Z2Nat.id by lia; apply z2b_b2z|]. apply in_seq. lia.
Qed.

Definition check_byte (b : byte) : bool :=
  forallb (fun o => forallb (fun i =>
     let curb := b2z b in let left := 8 - o in
     if left <? i then true
     else (if i =? left then Z.land (mkmask i) curb
           else Z.shiftr (Z.ldiff (Z.land curb (mkmask left)) (mkmask (left - i))) (left - i)) =?
          bits_value (firstn (Z.to_nat i) (skipn (Z.to_nat o) (byte_bits b)))) [0;1;2;3;4;5;6;7;8]) [0;1;2;3;4;5;6;7].
Lemma check_bytes : forallb check_byte all_bytes = true.
Proof. vm_compute. reflexivity. Qed.
Lemma in_range n k : 0 <= k < Z.of_nat n -> In k (map Z.of_nat (seq 0 n)).
Proof. intros H. apply in_map_iff. exists (Z.to_nat k). split; [lia|]. apply in_seq. lia. Qed.
Lemma byte_piece b o i : 0 <= o < 8 -> 0 <= i <= 8 - o ->
  (if i =? 8 - o then Z.land (mkmask i) (b2z b)
   else Z.shiftr (Z.ldiff (Z.land (b2z b) (mkmask (8 - o))) (mkmask (8 - o - i))) (8 - o - i)) =
  bits_value (firstn (Z.to_nat i) (skipn (Z.to_nat o) (byte_bits b))).
Proof.
  intros Ho Hi. pose proof check_bytes as H. rewrite forallb_forall in H. specialize (H b (all_bytes_in b)). unfold check_byte in H.
  rewrite forallb_forall in H. specialize (H o (in_range 8 o Ho)). rewrite forallb_forall in H. specialize (H i (in_range 9 i ltac:(lia))).
  cbn zeta in H. replace (8 - o <? i) with false in H by lia. lia.
Qed.

Lemma bits_value_app a b : bits_value (a ++ b) = bits_value a * 2 ^ zlen b + bits_value b.
Proof.
  unfold bits_value. rewrite fold_left_app.
  assert (G : forall l x, fold_left (fun a (b : bool) => 2 * a + (if b then 1 else 0)) l x = x * 2 ^ zlen l + fold_left (fun a (b : bool) => 2 * a + (if b then 1 else 0)) l 0).
  { induction l as [|y l IH]; intros x; cbn [fold_left].
    - rewrite zlen_nil, Z.pow_0_r. lia.
    - rewrite IH, (IH (2 * 0 + _)). rewrite zlen_cons, Z.pow_add_r by (try lia; apply zlen_nonneg). rewrite Z.pow_1_r. destruct y; lia. }
  apply G.
Qed.
Lemma bits_value_range l : 0 <= bits_value l < 2 ^ zlen l.
Proof.
  induction l as [|x l IH] using rev_ind; [change (0 <= 0 < 1); lia|]. rewrite bits_value_app, zlen_app. change (zlen [x]) with 1.
  rewrite Z.pow_add_r by (try lia; apply zlen_nonneg). rewrite Z.pow_1_r. change (bits_value [x]) with (2 * 0 + if x then 1 else 0). destruct x; lia.
Qed.

Lemma all_bits_length h : length (all_bits h) = (8 * length h)%nat.
Proof. induction h as [|b h IH]; [reflexivity|]. unfold all_bits in *. cbn [flat_map]. rewrite app_length, IH, byte_bits_length. cbn. lia. Qed.
Lemma all_bits_skip h : forall q, skipn (8 * q) (all_bits h) = all_bits (skipn q h).
Proof.
  induction h as [|b h IH]; intros q; [now rewrite !skipn_nil|]. destruct q as [|q]; [reflexivity|].
  replace (8 * S q)%nat with (8 + 8 * q)%nat by lia. cbn [skipn]. rewrite <- IH. reflexivity.
Qed.
Lemma skipn_skipn' {A} (l : list A) i j : skipn i (skipn j l) = skipn (j + i) l.
Proof. revert l. induction j as [|j IH]; intros l; [reflexivity|]. destruct l; [now rewrite !skipn_nil|]. apply IH. Qed.
Lemma skipn_cons {A} n (l : list A) x : nth_error l n = Some x -> skipn n l = x :: skipn (S n) l.
Proof. revert n. induction l as [|y l IH]; intros [|n] H; try discriminate; cbn in *; [congruence|now apply IH]. Qed.

Lemma skip_bits h c cb : 0 <= c -> nth_error h (Z.to_nat (c / 8)) = Some cb ->
  skipn (Z.to_nat c) (all_bits h) = skipn (Z.to_nat (c mod 8)) (byte_bits cb) ++ all_bits (skipn (S (Z.to_nat (c / 8))) h).
Proof.
  intros Hc Hn. replace (Z.to_nat c) with (8 * Z.to_nat (c / 8) + Z.to_nat (c mod 8))%nat by lia.
  rewrite <- skipn_skipn'. rewrite all_bits_skip, (skipn_cons _ _ _ Hn). unfold all_bits. cbn [flat_map]. rewrite skipn_app.
  rewrite byte_bits_length. replace (Z.to_nat (c mod 8) - 8)%nat with 0%nat by lia. reflexivity.
Qed.

Lemma hb_next_spec fuel : forall h c i, (Z.to_nat i < fuel)%nat -> 0 <= c -> 0 < i -> c + i <= 8 * zlen h ->
  hb_next fuel (mkHB h c) i = Ok (bits_at h c i, mkHB h (c + i)).
Proof.
  induction fuel as [|f IH]; intros h c i Hf Hc Hi Hle; [lia|]. cbn [hb_next hb_b hb_consumed].
  assert (Hlt : (Z.to_nat (c / 8) < length h)%nat) by (unfold zlen in *; lia).
  destruct (nth_error h (Z.to_nat (c / 8))) as [cb|] eqn:Hn; [|apply nth_error_None in Hn; lia].
  pose proof (skip_bits h c cb Hc Hn) as Hs. unfold bits_at. rewrite Hs.
  assert (Hl : length (skipn (Z.to_nat (c mod 8)) (byte_bits cb)) = (8 - Z.to_nat (c mod 8))%nat) by (rewrite skipn_length; reflexivity).
  pose proof (byte_piece cb (c mod 8)) as P.
  destruct (Z_le_gt_dec i (8 - c mod 8)) as [Hle8|Hgt].
  - specialize (P i ltac:(lia) ltac:(lia)). rewrite firstn_app. replace (Z.to_nat i - _)%nat with 0%nat by lia. cbn [firstn]. rewrite app_nil_r, <- P.
    destruct (i =? 8 - c mod 8) eqn:E; [reflexivity|]. replace (i <? 8 - c mod 8) with true by lia. reflexivity.
  - replace (i =? 8 - c mod 8) with false by lia. replace (i <? 8 - c mod 8) with false by lia.
    assert (L : 8 - c mod 8 > 0) by lia. rewrite IH by lia. cbn [rbind].
    rewrite firstn_app, firstn_all2 by lia. rewrite bits_value_app.
    assert (Hr : skipn (Z.to_nat (c + (8 - c mod 8))) (all_bits h) = all_bits (skipn (S (Z.to_nat (c / 8))) h)).
    { replace (Z.to_nat (c + (8 - c mod 8))) with (8 * S (Z.to_nat (c / 8)))%nat by lia. apply all_bits_skip. }
    unfold bits_at. rewrite Hr. replace (Z.to_nat i - _)%nat with (Z.to_nat (i - (8 - c mod 8))) by lia.
    assert (Hz : zlen (firstn (Z.to_nat (i - (8 - c mod 8))) (all_bits (skipn (S (Z.to_nat (c / 8))) h))) = i - (8 - c mod 8)).
    { unfold zlen. rewrite firstn_length, all_bits_length, skipn_length. unfold zlen in *. lia. }
    rewrite Hz. specialize (P (8 - c mod 8) ltac:(lia) ltac:(lia)). rewrite Z.eqb_refl in P. rewrite P.
    rewrite Z.shiftl_mul_pow2 by lia. rewrite (firstn_all2 (n := Z.to_nat (8 - c mod 8))) by lia.
    replace (c + (8 - c mod 8) + (i - (8 - c mod 8))) with (c + i) by lia. reflexivity.
Qed.

Lemma next_ok : forall h c i, 0 <= c -> 0 < i -> c + i <= 8 * zlen h -> Next (mkHB h c) i = Ok (bits_at h c i, mkHB h (c + i)).
Proof. intros h c i Hc Hi Hle. unfold Next. cbn [hb_b hb_consumed]. replace (_ <? _) with false by lia. apply hb_next_spec; lia. Qed.
Lemma next_end : forall h c i, 8 * zlen h < c + i -> Next (mkHB h c) i = Err ETooDeep.
Proof. intros h c i H. unfold Next. cbn [hb_b hb_consumed]. now replace (_ <? _) with true by lia. Qed.

Lemma bits_at_range h c i : 0 <= i -> 0 <= bits_at h c i < 2 ^ i.
Proof.
  intros Hi. unfold bits_at. set (l := firstn _ _). pose proof (bits_value_range l) as R. assert (zlen l <= i) by (unfold l, zlen; rewrite firstn_length; lia).
  pose proof (Z.pow_le_mono_r 2 (zlen l) i). lia.
Qed.

(** A sequence of calls. *)
Fixpoint next_all (hb : hashBits) (ws : list Z) : res (list Z * hashBits) :=
  match ws with
  | [] => Ok ([], hb)
  | i :: r => let? (v, hb1) := Next hb i in let? (vs, hb2) := next_all hb1 r in Ok (v :: vs, hb2)
  end.
Fixpoint groups (ws : list Z) (l : list bool) : list (list bool) :=
  match ws with [] => [] | i :: r => firstn (Z.to_nat i) l :: groups r (skipn (Z.to_nat i) l) end.
Lemma next_all_ok : forall ws h c, 0 <= c -> Forall (fun i => 0 < i) ws -> c + sumZ ws <= 8 * zlen h ->
  next_all (mkHB h c) ws = Ok (map bits_value (groups ws (skipn (Z.to_nat c) (all_bits h))), mkHB h (c + sumZ ws)).
Proof.
  induction ws as [|i ws IH]; intros h c Hc HF Hle.
  - unfold sumZ. cbn. now rewrite Z.add_0_r.
  - inversion HF as [|? ? H1 H2]; subst. change (sumZ (i :: ws)) with (i + sumZ ws) in *. assert (0 <= sumZ ws) by (clear - H2; induction H2; [cbn; lia|change (sumZ (x :: l)) with (x + sumZ l); lia]).
    cbn [next_all]. rewrite next_ok by lia. cbn [rbind]. rewrite IH by (auto; lia). cbn [rbind map groups].
    rewrite skipn_skipn'. replace (Z.to_nat c + Z.to_nat i)%nat with (Z.to_nat (c + i)) by lia. unfold bits_at. do 2 f_equal. f_equal. lia.
Qed.

(** ** Widths *)

Lemma ctz_nonneg p : 0 <= ctz p.
Proof. induction p; cbn [ctz]; lia. Qed.
Lemma ctz_pow p : forall n, 0 <= n -> Zpos p = 2 ^ n -> ctz p = n.
Proof.
  induction p as [p IH|p IH|]; intros n Hn H; cbn [ctz].
  - destruct (Z.eq_dec n 0) as [->|]; [rewrite Z.pow_0_r in H; lia|]. replace n with (1 + (n - 1)) in H by lia. rewrite Z.pow_add_r in H by lia. rewrite Z.pow_1_r in H. lia.
  - destruct (Z.eq_dec n 0) as [->|]; [rewrite Z.pow_0_r in H; lia|]. rewrite (IH (n - 1)); [lia|lia|]. replace n with (1 + (n - 1)) in H by lia. rewrite Z.pow_add_r in H by lia. rewrite Z.pow_1_r in H. lia.
  - destruct (Z.eq_dec n 0) as [->|]; [reflexivity|]. pose proof (Z.pow_gt_1 2 n). lia.
Qed.
Lemma Logtwo_ok v n : Logtwo v = Ok n <-> 0 <= n /\ v = 2 ^ n.
Proof.
  unfold Logtwo. split.
  - destruct v as [|p|p]; try discriminate. destruct (2 ^ ctz p =? Z.pos p) eqn:E; [|discriminate]. intros H. injection H as <-. pose proof (ctz_nonneg p). lia.
  - intros [Hn ->]. pose proof (Z.pow_pos_nonneg 2 n ltac:(lia) Hn). destruct (2 ^ n) as [|p|p] eqn:E; try lia.
    assert (C : ctz p = n) by (now apply ctz_pow). rewrite C, E, Z.eqb_refl. reflexivity.
Qed.
Lemma Logtwo_err v : (forall n, ~ (0 <= n /\ v = 2 ^ n)) -> Logtwo v = Err EBadWidth.
Proof.
  intros H. destruct (Logtwo v) as [n|e| |] eqn:E.
  - apply Logtwo_ok in E. now apply H in E.
  - unfold Logtwo in E. destruct v; try congruence. destruct (_ =? _); congruence.
  - unfold Logtwo in E. destruct v; try congruence. destruct (_ =? _); congruence.
  - unfold Logtwo in E. destruct v; try congruence. destruct (_ =? _); congruence.
Qed.

(** ** Slot names *)

(** The [n] lowest hexadecimal digits. *)
Fixpoint hexn (n : nat) (z : Z) : bytes :=
  match n with O => [] | S m => hexn m (z / 16) ++ [hexdigit (z mod 16)] end.
Lemma hexn_length n : forall z, length (hexn n z) = n.
Proof. induction n as [|n IH]; intros z; [reflexivity|]. cbn [hexn]. rewrite app_length, IH. cbn. lia. Qed.
Lemma hexn_0 n : hexn n 0 = repeat x30 n.
Proof.
  induction n as [|n IH]; [reflexivity|]. cbn [hexn]. rewrite Z.div_0_l, Z.mod_0_l by lia. rewrite IH. change (hexdigit 0) with x30.
  change [x30] with (repeat x30 1). rewrite <- repeat_app. f_equal. lia.
Qed.
Lemma pow16_S n : 16 ^ Z.of_nat (S n) = 16 * 16 ^ Z.of_nat n.
Proof. rewrite Nat2Z.inj_succ, Z.pow_succ_r by lia. reflexivity. Qed.
Lemma hex_pad n : forall z f, 0 <= z < 16 ^ Z.of_nat (S n) -> (0 < f)%nat -> z < 16 ^ Z.of_nat f ->
  (length (hex f z) <= S n)%nat /\ repeat x30 (S n - length (hex f z)) ++ hex f z = hexn (S n) z.
Proof.
  induction n as [|n IH]; intros z f Hz Hf Hzf; (destruct f as [|f]; [lia|]); cbn [hex].
  - change (16 ^ Z.of_nat 1) with 16 in Hz. replace (z <? 16) with true by lia. cbn [hexn length]. replace (z mod 16) with z by lia. split; [lia|reflexivity].
  - destruct (z <? 16) eqn:E.
    + cbn [length]. split; [lia|]. change (hexn (S (S n)) z) with (hexn (S n) (z / 16) ++ [hexdigit (z mod 16)]).
      replace (z / 16) with 0 by lia. replace (z mod 16) with z by lia. rewrite hexn_0. reflexivity.
    + rewrite pow16_S in Hz, Hzf. destruct f as [|f]; [change (16 ^ Z.of_nat 0) with 1 in Hzf; lia|].
      destruct (IH (z / 16) (S f)) as [I1 I2]; [rewrite pow16_S in Hz |- *; lia|lia|lia|].
      rewrite app_length. cbn [length]. split; [lia|].
      change (hexn (S (S n)) z) with (hexn (S n) (z / 16) ++ [hexdigit (z mod 16)]). rewrite <- I2, app_assoc. do 2 f_equal. f_equal. lia.
Qed.
Lemma log2_16 z : 0 <= z -> z < 16 ^ Z.of_nat (S (Z.to_nat (Z.log2 z))).
Proof.
  intros Hz. destruct (Z.eq_dec z 0) as [->|]; [reflexivity|]. pose proof (Z.log2_spec z ltac:(lia)) as [_ H]. pose proof (Z.log2_nonneg z).
  rewrite Nat2Z.inj_succ, Z2Nat.id by lia. pose proof (Z.pow_le_mono_l 2 16 (Z.succ (Z.log2 z))). lia.
Qed.
Lemma hexpad_hexn n z : 0 <= z < 16 ^ Z.of_nat (S n) -> hexpad (S n) z = hexn (S n) z.
Proof. intros H. unfold hexpad, hexX. apply hex_pad; [lia|lia|apply log2_16; lia]. Qed.

Lemma hexdigit_lt d e : 0 <= d < e -> e < 16 -> b2z (hexdigit d) < b2z (hexdigit e).
Proof.
  intros H1 H2. unfold hexdigit. destruct (d <? 10) eqn:E1; destruct (e <? 10) eqn:E2; rewrite !b2z_z2b, !Z.mod_small by lia; lia.
Qed.
Lemma name_lt_app a b x y : length a = length b -> name_lt a b -> name_lt (a ++ x) (b ++ y).
Proof.
  intros L H. induction H; cbn in L |- *; try discriminate; [now apply nl_here|]. apply nl_later. apply IHname_lt. lia.
Qed.
Lemma name_lt_pre a x y : name_lt x y -> name_lt (a ++ x) (a ++ y).
Proof. intros H. induction a; cbn; [assumption|now apply nl_later]. Qed.
Lemma hexn_lt n : forall z z', 0 <= z < z' -> z' < 16 ^ Z.of_nat n -> name_lt (hexn n z) (hexn n z').
Proof.
  induction n as [|n IH]; intros z z' H1 H2; [change (16 ^ Z.of_nat 0) with 1 in H2; lia|]. cbn [hexn]. rewrite pow16_S in H2.
  destruct (Z.eq_dec (z / 16) (z' / 16)) as [e|ne].
  - rewrite e. apply name_lt_pre. apply nl_here. apply hexdigit_lt; lia.
  - apply name_lt_app; [now rewrite !hexn_length|]. apply IH; lia.
Qed.
Lemma hex_len f : forall z, 0 <= z -> z < 16 ^ Z.of_nat f -> (0 < f)%nat -> (0 < length (hex f z))%nat /\ z < 16 ^ Z.of_nat (length (hex f z)).
Proof.
  induction f as [|f IH]; intros z Hz Hf H0; [lia|]. cbn [hex]. destruct (z <? 16) eqn:E; [cbn [length]; split; [lia|change (16 ^ Z.of_nat 1) with 16; lia]|].
  rewrite pow16_S in Hf. destruct f as [|f]; [change (16 ^ Z.of_nat 0) with 1 in Hf; lia|]. destruct (IH (z / 16)) as [I1 I2]; [lia|lia|lia|].
  rewrite app_length. cbn [length]. split; [lia|]. replace (length (hex (S f) (z / 16)) + 1)%nat with (S (length (hex (S f) (z / 16)))) by lia. rewrite pow16_S. lia.
Qed.
Lemma hexX_len z : 0 <= z -> (0 < length (hexX z))%nat /\ z < 16 ^ Z.of_nat (length (hexX z)).
Proof. intros H. apply hex_len; [lia|now apply log2_16|lia]. Qed.

(** Names of the slots of a shard of a given width. *)
Lemma slot_names size i : 0 <= i < size ->
  let pad := length (hexX (size - 1)) in
  (0 < pad)%nat /\ length (hexpad pad i) = pad /\ (forall j, i < j < size -> name_lt (hexpad pad i) (hexpad pad j)).
Proof.
  intros Hi pad. destruct (hexX_len (size - 1) ltac:(lia)) as [H1 H2]. fold pad in H1, H2. destruct pad as [|n]; [lia|].
  split; [lia|]. rewrite hexpad_hexn by lia. split; [apply hexn_length|]. intros j Hj. rewrite hexpad_hexn by lia. apply hexn_lt; lia.
Qed.
Lemma name_lt_irrefl a : ~ name_lt a a.
Proof. induction a as [|x a IH]; intros H; inversion H; subst; [lia|auto]. Qed.
Lemma name_ltb_spec a b : name_ltb a b = true <-> name_lt a b.
Proof.
  split.
  - revert b. induction a as [|x a IH]; intros [|y b] H; try discriminate; [constructor|]. cbn [name_ltb] in H.
    destruct (b2z x <? b2z y) eqn:E1; [apply nl_here; lia|]. destruct (b2z y <? b2z x) eqn:E2; [discriminate|].
    assert (x = y) by (apply b2z_inj; lia). subst. apply nl_later. auto.
  - induction 1; cbn [name_ltb]; [reflexivity|replace (b2z x <? b2z y) with true by lia; reflexivity|].
    now replace (b2z x <? b2z x) with false by lia.
Qed.

(** ** Bitmaps *)

Lemma be_number_snoc a b : be_number (a ++ [b]) = 256 * be_number a + b2z b.
Proof. unfold be_number. now rewrite fold_left_app. Qed.
Lemma testbit_low x y i : 0 <= y < 256 -> 0 <= i < 8 -> Z.testbit (256 * x + y) i = Z.testbit y i.
Proof.
  intros Hy Hi. rewrite <- (Z.mod_pow2_bits_low (256 * x + y) 8) by lia. f_equal. change (2 ^ 8) with 256. lia.
Qed.
Lemma testbit_high x y i : 0 <= y < 256 -> 8 <= i -> Z.testbit (256 * x + y) i = Z.testbit x (i - 8).
Proof.
  intros Hy Hi. replace x with ((256 * x + y) / 2 ^ 8) at 2 by (change (2 ^ 8) with 256; lia). rewrite Z.div_pow2_bits by lia. f_equal. lia.
Qed.
Lemma bf_byte_snoc a b i : 0 <= i -> bf_byte (a ++ [b]) i = if i <? 8 then Some b else bf_byte a (i - 8).
Proof.
  intros Hi. unfold bf_byte, bf_index. rewrite zlen_app. change (zlen [b]) with 1. replace (i <? 0) with false by lia. cbn [orb].
  destruct (i <? 8) eqn:E.
  - replace (i / 8) with 0 by lia. pose proof (zlen_nonneg a). replace (zlen a + 1 - 0 - 1 <? 0) with false by lia.
    rewrite nth_error_app2 by (unfold zlen; lia). replace (Z.to_nat (zlen a + 1 - 0 - 1) - length a)%nat with 0%nat by (unfold zlen; lia). reflexivity.
  - replace (i - 8 <? 0) with false by lia. cbn [orb]. replace (zlen a + 1 - i / 8 - 1) with (zlen a - (i - 8) / 8 - 1) by lia.
    destruct (zlen a - (i - 8) / 8 - 1 <? 0) eqn:E2; [reflexivity|]. apply nth_error_app1. unfold zlen in *. lia.
Qed.
Lemma occupied_byte bf : forall i, 0 <= i -> occupied bf i = match bf_byte bf i with Some b => Z.testbit (b2z b) (i mod 8) | None => false end.
Proof.
  induction bf as [|b bf IH] using rev_ind; intros i Hi.
  - unfold occupied, be_number, bf_byte. cbn [fold_left]. rewrite Z.testbit_0_l. destruct ((i <? 0) || _); [reflexivity|]. now destruct (Z.to_nat _).
  - rewrite bf_byte_snoc by lia. unfold occupied in *. rewrite be_number_snoc. pose proof (b2z_range b). destruct (i <? 8) eqn:E.
    + rewrite testbit_low by lia. f_equal. lia.
    + rewrite testbit_high by lia. rewrite IH by lia. replace ((i - 8) mod 8) with (i mod 8) by lia. reflexivity.
Qed.
Lemma bf_byte_some bf i : 0 <= i < 8 * zlen bf -> exists b, bf_byte bf i = Some b /\ nth_error bf (Z.to_nat (bf_index bf i)) = Some b.
Proof.
  intros H. unfold bf_byte, bf_index. replace (i <? 0) with false by lia. replace (_ <? 0) with false by lia. cbn [orb].
  destruct (nth_error bf _) as [b|] eqn:E; [eauto|]. apply nth_error_None in E. unfold zlen in *. lia.
Qed.
Lemma bf_bit_ok bf i : 0 <= i < 8 * zlen bf -> bf_bit bf i = Ok (occupied bf i).
Proof. intros H. destruct (bf_byte_some bf i H) as [b [E _]]. unfold bf_bit. rewrite occupied_byte by lia. now rewrite E. Qed.
Lemma bf_bit_out bf i : ~ (0 <= i < 8 * zlen bf) -> bf_bit bf i = Panic.
Proof. intros H. unfold bf_bit, bf_byte, bf_index. destruct ((i <? 0) || (zlen bf - i / 8 - 1 <? 0)) eqn:E; [reflexivity|]. lia. Qed.

Lemma set_nth_length {A} n (x : A) l : length (set_nth n x l) = length l.
Proof. revert n. induction l as [|y l IH]; intros [|n]; cbn; auto. Qed.
Lemma nth_error_set_nth {A} n (x : A) l m : nth_error (set_nth n x l) m = if (n =? m)%nat then match nth_error l n with Some _ => Some x | None => None end else nth_error l m.
Proof.
  revert n m. induction l as [|y l IH]; intros n m.
  - cbn [set_nth]. destruct (n =? m)%nat; now destruct n, m.
  - destruct n as [|n]; destruct m as [|m]; cbn; try reflexivity. apply IH.
Qed.

Lemma bf_update bf i x : 0 <= i < 8 * zlen bf ->
  let bf' := set_nth (Z.to_nat (bf_index bf i)) x bf in
  zlen bf' = zlen bf /\ forall j, 0 <= j < 8 * zlen bf -> bf_byte bf' j = if j / 8 =? i / 8 then Some x else bf_byte bf j.
Proof.
  intros Hi bf'. assert (HL : zlen bf' = zlen bf) by (unfold zlen, bf'; now rewrite set_nth_length). split; [exact HL|]. intros j Hj.
  unfold bf_byte, bf_index. rewrite HL. replace (j <? 0) with false by lia. replace (zlen bf - j / 8 - 1 <? 0) with false by lia. cbn [orb].
  unfold bf'. rewrite nth_error_set_nth. unfold bf_index. destruct (j / 8 =? i / 8) eqn:E.
  - replace (Z.to_nat (zlen bf - i / 8 - 1) =? Z.to_nat (zlen bf - j / 8 - 1))%nat with true by lia.
    destruct (nth_error bf _) eqn:E2; [reflexivity|]. apply nth_error_None in E2. unfold zlen in *. lia.
  - replace (Z.to_nat (zlen bf - i / 8 - 1) =? Z.to_nat (zlen bf - j / 8 - 1))%nat with false by lia. reflexivity.
Qed.

Lemma b2z_z2b_bit z k : 0 <= k < 8 -> Z.testbit (b2z (z2b z)) k = Z.testbit z k.
Proof. intros Hk. rewrite b2z_z2b. change 256 with (2 ^ 8). apply Z.mod_pow2_bits_low. lia. Qed.

Lemma bf_set_ok bf i : 0 <= i < 8 * zlen bf -> exists bf', bf_set bf i = Ok bf' /\ zlen bf' = zlen bf /\
  forall j, 0 <= j < 8 * zlen bf -> occupied bf' j = (j =? i) || occupied bf j.
Proof.
  intros Hi. destruct (bf_byte_some bf i Hi) as [b [E _]]. unfold bf_set. rewrite E. eexists. split; [reflexivity|].
  destruct (bf_update bf i (z2b (Z.lor (b2z b) (2 ^ (i mod 8)))) Hi) as [H1 H2]. split; [exact H1|]. intros j Hj.
  rewrite !occupied_byte by lia. rewrite H2 by lia. destruct (j / 8 =? i / 8) eqn:Ed.
  - assert (Eb : bf_byte bf j = Some b) by (rewrite <- E; unfold bf_byte, bf_index; replace (j / 8) with (i / 8) by lia; replace (j <? 0) with (i <? 0) by lia; reflexivity).
    rewrite Eb, b2z_z2b_bit by lia. rewrite Z.lor_spec, Z.pow2_bits_eqb by lia. replace (i mod 8 =? j mod 8) with (j =? i) by lia. apply orb_comm.
  - now replace (j =? i) with false by lia.
Qed.
Lemma bf_unset_ok bf i : 0 <= i < 8 * zlen bf -> exists bf', bf_unset bf i = Ok bf' /\ zlen bf' = zlen bf /\
  forall j, 0 <= j < 8 * zlen bf -> occupied bf' j = negb (j =? i) && occupied bf j.
Proof.
  intros Hi. destruct (bf_byte_some bf i Hi) as [b [E _]]. unfold bf_unset. rewrite E. eexists. split; [reflexivity|].
  destruct (bf_update bf i (z2b (Z.land (b2z b) (Z.lxor 255 (2 ^ (i mod 8))))) Hi) as [H1 H2]. split; [exact H1|]. intros j Hj.
  rewrite !occupied_byte by lia. rewrite H2 by lia. destruct (j / 8 =? i / 8) eqn:Ed.
  - assert (Eb : bf_byte bf j = Some b) by (rewrite <- E; unfold bf_byte, bf_index; replace (j / 8) with (i / 8) by lia; replace (j <? 0) with (i <? 0) by lia; reflexivity).
    rewrite Eb, b2z_z2b_bit by lia. rewrite Z.land_spec, Z.lxor_spec, Z.pow2_bits_eqb by lia. replace (i mod 8 =? j mod 8) with (j =? i) by lia.
    change 255 with (Z.ones 8). rewrite Z.ones_spec_low by lia. rewrite andb_comm. destruct (j =? i); reflexivity.
  - now replace (j =? i) with false by lia.
Qed.

Definition check_ones (b : byte) : bool :=
  forallb (fun m => ones8 ((b2z b * 2 ^ (8 - m)) mod 256) =? zlen (filter (fun k => Z.testbit (b2z b) (Z.of_nat k)) (seq 0 (Z.to_nat m)))) [0;1;2;3;4;5;6;7]
  && (ones8 (b2z b) =? zlen (filter (fun k => Z.testbit (b2z b) (Z.of_nat k)) (seq 0 8))).
Lemma check_ones_all : forallb check_ones all_bytes = true.
Proof. vm_compute. reflexivity. Qed.
Lemma ones_byte b m : 0 <= m < 8 -> ones8 ((b2z b * 2 ^ (8 - m)) mod 256) = zlen (filter (fun k => Z.testbit (b2z b) (Z.of_nat k)) (seq 0 (Z.to_nat m))).
Proof.
  intros Hm. pose proof check_ones_all as H. rewrite forallb_forall in H. specialize (H b (all_bytes_in b)). unfold check_ones in H. apply andb_true_iff in H as [H _].
  rewrite forallb_forall in H. specialize (H m (in_range 8 m Hm)). lia.
Qed.
Lemma ones_all b : ones8 (b2z b) = zlen (filter (fun k => Z.testbit (b2z b) (Z.of_nat k)) (seq 0 8)).
Proof.
  pose proof check_ones_all as H. rewrite forallb_forall in H. specialize (H b (all_bytes_in b)). unfold check_ones in H. apply andb_true_iff in H as [_ H]. lia.
Qed.

Lemma filter_ext_in' {A} (f g : A -> bool) l : (forall x, In x l -> f x = g x) -> filter f l = filter g l.
Proof. induction l as [|x l IH]; intros H; [reflexivity|]. cbn. rewrite (H x) by now left. rewrite IH; [reflexivity|]. intros y Hy. apply H. now right. Qed.
Lemma filter_shift (f : nat -> bool) n a : length (filter f (seq (a) n)) = length (filter (fun k => f (a + k)%nat) (seq 0 n)).
Proof.
  revert f a. induction n as [|n IH]; intros f a; [reflexivity|]. cbn [seq filter]. rewrite Nat.add_0_r.
  assert (length (filter f (seq (S a) n)) = length (filter (fun k => f (a + k)%nat) (seq 1 n))).
  { rewrite (IH f (S a)), (IH (fun k => f (a + k)%nat) 1%nat). f_equal. apply filter_ext. intros k. f_equal. lia. }
  destruct (f a); cbn [length]; lia.
Qed.

Lemma occupied_before_snoc a b i : 0 <= i -> occupied_before (a ++ [b]) i =
  if i <? 8 then zlen (filter (fun k => Z.testbit (b2z b) (Z.of_nat k)) (seq 0 (Z.to_nat i))) else ones8 (b2z b) + occupied_before a (i - 8).
Proof.
  intros Hi. unfold occupied_before. pose proof (b2z_range b). destruct (i <? 8) eqn:E.
  - unfold zlen. do 2 f_equal. apply filter_ext_in'. intros k Hk. apply in_seq in Hk. unfold occupied. rewrite be_number_snoc, testbit_low by lia. reflexivity.
  - replace (Z.to_nat i) with (8 + Z.to_nat (i - 8))%nat by lia. rewrite seq_app, filter_app, zlen_app. rewrite ones_all. f_equal.
    + unfold zlen. do 2 f_equal. apply filter_ext_in'. intros k Hk. apply in_seq in Hk. unfold occupied. rewrite be_number_snoc, testbit_low by lia. reflexivity.
    + unfold zlen. f_equal. rewrite (filter_shift _ _ (0 + 8)%nat). f_equal. apply filter_ext. intros k. unfold occupied. rewrite be_number_snoc, testbit_high by lia. f_equal. lia.
Qed.
Lemma bf_before_snoc a b i : 0 <= i -> bf_before (a ++ [b]) i =
  if i <? 8 then Ok (ones8 ((b2z b * 2 ^ (8 - i mod 8)) mod 256)) else rmap (fun n => ones8 (b2z b) + n) (bf_before a (i - 8)).
Proof.
  intros Hi. unfold bf_before. rewrite bf_byte_snoc by lia. destruct (i <? 8) eqn:E.
  - unfold bf_index. rewrite zlen_app. change (zlen [b]) with 1. rewrite skipn_all2 by (rewrite app_length; cbn [length]; unfold zlen; lia). cbn [fold_right]. f_equal. lia.
  - destruct (bf_byte a (i - 8)) as [c|] eqn:Ec; [|reflexivity]. cbn [rmap]. f_equal. replace ((i - 8) mod 8) with (i mod 8) by lia.
    unfold bf_index. rewrite zlen_app. change (zlen [b]) with 1. replace (zlen a + 1 - i / 8 - 1) with (zlen a - (i - 8) / 8 - 1) by lia.
    assert (Hr : 0 <= zlen a - (i - 8) / 8 - 1 < zlen a). { unfold bf_byte, bf_index in Ec. destruct (_ || _) eqn:E3; [discriminate|]. lia. }
    rewrite skipn_app. replace (S _ - length a)%nat with 0%nat by (unfold zlen in *; lia). cbn [skipn]. rewrite fold_right_app. cbn [fold_right].
    assert (G : forall l x, fold_right (fun c n => ones8 (b2z c) + n) x l = fold_right (fun c n => ones8 (b2z c) + n) 0 l + x) by (induction l as [|y l IHl]; intros x; cbn [fold_right]; [lia|rewrite IHl; lia]).
    rewrite (G _ (ones8 (b2z b) + 0)). lia.
Qed.
Lemma bf_before_ok bf : forall i, 0 <= i < 8 * zlen bf -> bf_before bf i = Ok (occupied_before bf i).
Proof.
  induction bf as [|b bf IH] using rev_ind; intros i Hi; [change (8 * zlen []) with 0 in Hi; lia|]. rewrite zlen_app in Hi. change (zlen [b]) with 1 in Hi.
  rewrite bf_before_snoc, occupied_before_snoc by lia. destruct (i <? 8) eqn:E.
  - replace (i mod 8) with i by lia. now rewrite ones_byte by lia.
  - rewrite IH by lia. reflexivity.
Qed.

Lemma bf_bytes_zero bf : exists k, bf = repeat x00 k ++ obytes (bf_bytes bf).
Proof.
  induction bf as [|b bf [k IH]]; [now exists 0%nat|]. cbn [bf_bytes]. destruct (b2z b =? 0) eqn:E; [|now exists 0%nat].
  exists (S k). assert (b = x00) by (apply b2z_inj; change (b2z x00) with 0; lia). subst b. cbn [repeat app]. now f_equal.
Qed.
Lemma bf_roundtrip bf zs : length zs = length bf -> bf_setbytes zs (obytes (bf_bytes bf)) = Ok bf.
Proof.
  intros L. destruct (bf_bytes_zero bf) as [k H]. set (s := obytes (bf_bytes bf)) in *. unfold bf_setbytes.
  assert (Hl : length bf = (k + length s)%nat) by (rewrite H at 1; rewrite app_length, repeat_length; reflexivity).
  unfold zlen. replace (_ <? _) with false by lia. f_equal. rewrite H at 1. do 2 f_equal. lia.
Qed.
Lemma NewBitfield_ok n : 0 <= n -> n mod 8 = 0 -> NewBitfield n = Ok (repeat x00 (Z.to_nat (n / 8))).
Proof. intros H1 H2. unfold NewBitfield. replace (n <? 0) with false by lia. now replace (n mod 8 =? 0) with true by lia. Qed.
Lemma occupied_zero n i : occupied (repeat x00 n) i = false.
Proof.
  unfold occupied. replace (be_number (repeat x00 n)) with 0; [apply Z.testbit_0_l|]. unfold be_number. symmetry.
  assert (G : forall n, fold_left (fun a b => 256 * a + b2z b) (repeat x00 n) 0 = 0) by (induction n0 as [|m IH]; [reflexivity|cbn [repeat fold_left]; exact IH]). apply G.
Qed.
Lemma bf_ext a : forall b, zlen a = zlen b -> (forall i, 0 <= i < 8 * zlen a -> occupied a i = occupied b i) -> a = b.
Proof.
  induction a as [|x a IH] using rev_ind; intros b HL H.
  - destruct b; [reflexivity|]. rewrite zlen_cons in HL. change (zlen []) with 0 in HL. pose proof (zlen_nonneg b0). lia.
  - destruct (exists_last (l := b)) as [c [y ->]]; [intros ->; rewrite zlen_app in HL; change (zlen [x]) with 1 in HL; change (zlen (@nil byte)) with 0 in HL; pose proof (zlen_nonneg a); lia|].
    rewrite !zlen_app in *. change (zlen [x]) with 1 in *. change (zlen [y]) with 1 in *.
    pose proof (b2z_range x). pose proof (b2z_range y). pose proof (zlen_nonneg a).
    assert (x = y).
    { apply b2z_inj. apply Z.bits_inj'. intros n Hn. destruct (Z_lt_ge_dec n 8) as [H8|H8].
      - specialize (H n ltac:(lia)). unfold occupied in H. now rewrite !be_number_snoc, !testbit_low in H by lia.
      - assert (B : forall z, 0 <= z < 256 -> Z.testbit z n = false).
        { intros z Hz. destruct (Z.eq_dec z 0) as [->|]; [apply Z.testbit_0_l|]. apply Z.bits_above_log2; [lia|]. apply Z.log2_lt_pow2; [lia|].
          pose proof (Z.pow_le_mono_r 2 8 n). change (2 ^ 8) with 256 in *. lia. }
        now rewrite !B by lia. }
    subst y. f_equal. apply IH; [lia|]. intros i Hi. specialize (H (i + 8) ltac:(lia)). unfold occupied in *. rewrite !be_number_snoc, !testbit_high in H by lia.
    now replace (i + 8 - 8) with i in H by lia.
Qed.
