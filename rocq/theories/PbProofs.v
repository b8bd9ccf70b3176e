(** Lemmas about the protobuf codec. *)
From Verif Require Import Base Pb.

(** ** Varints *)

Lemma pow128_S k : 128 ^ Z.of_nat (S k) = 128 * 128 ^ Z.of_nat k.
Proof. rewrite Nat2Z.inj_succ, Z.pow_succ_r by lia. reflexivity. Qed.
Lemma pow128_pos k : 0 < 128 ^ Z.of_nat k.
Proof. apply Z.pow_pos_nonneg; lia. Qed.

Lemma dec_enc k : forall n r, 0 <= n < 2 * 128 ^ Z.of_nat k ->
  dec_varint k (enc_varint k n ++ r) = Some (n, r).
Proof.
  induction k as [|k IH]; intros n r Hn.
  - change (128 ^ Z.of_nat 0) with 1 in Hn. cbn [enc_varint app dec_varint].
    rewrite b2z_z2b, Z.mod_small by lia.
    destruct (n <? 2) eqn:E; [reflexivity|lia].
  - rewrite pow128_S in Hn. cbn [enc_varint].
    destruct (n <? 128) eqn:E.
    + cbn [app dec_varint]. rewrite b2z_z2b, Z.mod_small by lia. rewrite E. reflexivity.
    + cbn [app dec_varint]. rewrite b2z_z2b.
      assert (Hm : (n mod 128 + 128) mod 256 = n mod 128 + 128) by (apply Z.mod_small; lia).
      rewrite Hm. destruct (n mod 128 + 128 <? 128) eqn:E2; [lia|].
      rewrite IH.
      * f_equal. f_equal. lia.
      * split; [lia|]. apply Z.div_lt_upper_bound; lia.
Qed.

Lemma decode_varint_varint n r : 0 <= n < two64 -> decode_varint (varint n ++ r) = Some (n, r).
Proof. intros H. apply dec_enc. exact H. Qed.

Lemma enc_varint_nonempty k n : enc_varint k n <> [].
Proof. destruct k; cbn; [discriminate|]. destruct (n <? 128); discriminate. Qed.
Lemma varint_nonempty n : varint n <> [].
Proof. apply enc_varint_nonempty. Qed.

Lemma dec_varint_stable k : forall b x r, dec_varint k b = Some (x, r) ->
  exists p, b = p ++ r /\ p <> [] /\ 0 <= x < 2 * 128 ^ Z.of_nat k /\
            forall r', dec_varint k (p ++ r') = Some (x, r').
Proof.
  induction k as [|k IH]; intros b x r H; destruct b as [|c b]; cbn [dec_varint] in H; try discriminate.
  - destruct (b2z c <? 2) eqn:E; [|discriminate]. injection H as <- <-.
    exists [c]. split; [reflexivity|]. split; [discriminate|]. split.
    + pose proof (b2z_range c). change (128 ^ Z.of_nat 0) with 1. lia.
    + intros r'. cbn [app dec_varint]. rewrite E. reflexivity.
  - pose proof (b2z_range c). pose proof (pow128_pos k).
    destruct (b2z c <? 128) eqn:E.
    + injection H as <- <-. exists [c].
      split; [reflexivity|]. split; [discriminate|]. split.
      * rewrite pow128_S. lia.
      * intros r'. cbn [app dec_varint]. rewrite E. reflexivity.
    + destruct (dec_varint k b) as [[y r0]|] eqn:D; [|discriminate].
      injection H as <- <-.
      destruct (IH _ _ _ D) as (p & -> & Hp & Hy & Hst).
      exists (c :: p). split; [reflexivity|]. split; [discriminate|]. split.
      * rewrite pow128_S. lia.
      * intros r'. cbn [app dec_varint]. rewrite E, Hst. reflexivity.
Qed.

Lemma decode_varint_stable b x r : decode_varint b = Some (x, r) ->
  exists p, b = p ++ r /\ p <> [] /\ 0 <= x < two64 /\
            forall r', decode_varint (p ++ r') = Some (x, r').
Proof. apply (dec_varint_stable 9). Qed.

(** ** Payloads *)

Lemma dec_bytes_enc v r : zlen v < two64 -> dec_bytes (varint (zlen v) ++ v ++ r) = Some (v, r).
Proof.
  intros H. unfold dec_bytes. pose proof (zlen_nonneg v).
  rewrite decode_varint_varint by lia. rewrite zlen_app.
  pose proof (zlen_nonneg r).
  destruct (zlen v + zlen r <? zlen v) eqn:E; [lia|].
  rewrite ztake_app_r, zdrop_app_r by lia. rewrite Z.sub_diag, ztake_0, zdrop_0, app_nil_r.
  reflexivity.
Qed.

Lemma dec_bytes_stable b v r : dec_bytes b = Some (v, r) ->
  exists p, b = p ++ r /\ p <> [] /\ zlen v < two64 /\
            forall r', dec_bytes (p ++ r') = Some (v, r').
Proof.
  unfold dec_bytes. destruct (decode_varint b) as [[n r0]|] eqn:D; [|discriminate].
  destruct (zlen r0 <? n) eqn:E; [discriminate|]. intros H; injection H as <- <-.
  destruct (decode_varint_stable _ _ _ D) as (p & -> & Hp & Hn & Hst).
  assert (Hl : zlen (ztake n r0) = n) by (apply zlen_ztake; lia).
  exists (p ++ ztake n r0). split; [now rewrite <- app_assoc, ztake_zdrop|].
  split; [destruct p; [congruence|discriminate]|]. split; [lia|].
  intros r'. rewrite <- app_assoc, Hst. rewrite zlen_app, Hl. pose proof (zlen_nonneg r').
  destruct (n + zlen r' <? n) eqn:E2; [lia|].
  rewrite ztake_app_r, zdrop_app_r by lia. rewrite Hl, Z.sub_diag, ztake_0, zdrop_0, app_nil_r.
  reflexivity.
Qed.

Lemma skip_fixed_stable n b r : 0 <= n -> skip_fixed n b = Some r ->
  exists p, b = p ++ r /\ forall r', skip_fixed n (p ++ r') = Some r'.
Proof.
  intros Hn0. unfold skip_fixed. destruct (zlen b <? n) eqn:E; [discriminate|]. intros H; injection H as <-.
  exists (ztake n b). split; [now rewrite ztake_zdrop|].
  assert (Hl : zlen (ztake n b) = n) by (apply zlen_ztake; lia).
  intros r'. rewrite zlen_app, Hl. pose proof (zlen_nonneg r').
  destruct (n + zlen r' <? n) eqn:E2; [lia|].
  rewrite zdrop_app_r by lia. now rewrite Hl, Z.sub_diag, zdrop_0.
Qed.

Lemma find_end_group_stable f : forall d b r, find_end_group f d b = Some r ->
  exists p, b = p ++ r /\ p <> [] /\
    forall f' r', (length p <= f')%nat -> find_end_group f' d (p ++ r') = Some r'.
Proof.
  assert (Hne : forall A (p q : list A), p <> [] -> p ++ q <> []).
  { intros A p q Hp. destruct p; [congruence|discriminate]. }
  assert (Hlen : forall A (p : list A), p <> [] -> (1 <= length p)%nat).
  { intros A p Hp. destruct p; [congruence|cbn; lia]. }
  induction f as [|f IH]; intros d b r H; [discriminate|]. cbn [find_end_group] in H.
  destruct (decode_varint b) as [[x r0]|] eqn:D; [|discriminate].
  destruct (decode_varint_stable _ _ _ D) as (p & -> & Hp & Hx & Hst). clear D.
  destruct (x mod 8 =? 0) eqn:W0; [|destruct (x mod 8 =? 1) eqn:W1; [|destruct (x mod 8 =? 2) eqn:W2;
    [|destruct (x mod 8 =? 3) eqn:W3; [|destruct (x mod 8 =? 4) eqn:W4; [|destruct (x mod 8 =? 5) eqn:W5]]]]].
  - destruct (decode_varint r0) as [[y r1]|] eqn:D1; [|discriminate].
    destruct (decode_varint_stable _ _ _ D1) as (p1 & -> & Hp1 & _ & Hst1).
    destruct (IH _ _ _ H) as (p2 & -> & Hp2 & Hst2).
    exists (p ++ p1 ++ p2). split; [now rewrite <- !app_assoc|]. split; [auto|].
    intros f' r' Hf'. rewrite !app_length in Hf'. pose proof (Hlen _ _ Hp).
    destruct f' as [|f']; [lia|]. cbn [find_end_group]. rewrite <- !app_assoc, Hst, W0, Hst1.
    apply Hst2. lia.
  - destruct (skip_fixed 8 r0) as [r1|] eqn:D1; [|discriminate].
    destruct (skip_fixed_stable 8 _ _ ltac:(lia) D1) as (p1 & -> & Hst1).
    destruct (IH _ _ _ H) as (p2 & -> & Hp2 & Hst2).
    exists (p ++ p1 ++ p2). split; [now rewrite <- !app_assoc|]. split; [auto|].
    intros f' r' Hf'. rewrite !app_length in Hf'. pose proof (Hlen _ _ Hp).
    destruct f' as [|f']; [lia|]. cbn [find_end_group]. rewrite <- !app_assoc, Hst, W0, W1, Hst1.
    apply Hst2. lia.
  - destruct (dec_bytes r0) as [[v r1]|] eqn:D1; [|discriminate].
    destruct (dec_bytes_stable _ _ _ D1) as (p1 & -> & _ & _ & Hst1).
    destruct (IH _ _ _ H) as (p2 & -> & Hp2 & Hst2).
    exists (p ++ p1 ++ p2). split; [now rewrite <- !app_assoc|]. split; [auto|].
    intros f' r' Hf'. rewrite !app_length in Hf'. pose proof (Hlen _ _ Hp).
    destruct f' as [|f']; [lia|]. cbn [find_end_group]. rewrite <- !app_assoc, Hst, W0, W1, W2, Hst1.
    apply Hst2. lia.
  - destruct (IH _ _ _ H) as (p2 & -> & Hp2 & Hst2).
    exists (p ++ p2). split; [now rewrite <- !app_assoc|]. split; [auto|].
    intros f' r' Hf'. rewrite !app_length in Hf'. pose proof (Hlen _ _ Hp).
    destruct f' as [|f']; [lia|]. cbn [find_end_group]. rewrite <- !app_assoc, Hst, W0, W1, W2, W3.
    apply Hst2. lia.
  - destruct d as [|d].
    + injection H as <-. exists p. split; [reflexivity|]. split; [auto|].
      intros f' r' Hf'. pose proof (Hlen _ _ Hp).
      destruct f' as [|f']; [lia|]. cbn [find_end_group]. rewrite Hst, W0, W1, W2, W3, W4. reflexivity.
    + destruct (IH _ _ _ H) as (p2 & -> & Hp2 & Hst2).
      exists (p ++ p2). split; [now rewrite <- !app_assoc|]. split; [auto|].
      intros f' r' Hf'. rewrite !app_length in Hf'. pose proof (Hlen _ _ Hp).
      destruct f' as [|f']; [lia|]. cbn [find_end_group]. rewrite <- !app_assoc, Hst, W0, W1, W2, W3, W4.
      apply Hst2. lia.
  - destruct (skip_fixed 4 r0) as [r1|] eqn:D1; [|discriminate].
    destruct (skip_fixed_stable 4 _ _ ltac:(lia) D1) as (p1 & -> & Hst1).
    destruct (IH _ _ _ H) as (p2 & -> & Hp2 & Hst2).
    exists (p ++ p1 ++ p2). split; [now rewrite <- !app_assoc|]. split; [auto|].
    intros f' r' Hf'. rewrite !app_length in Hf'. pose proof (Hlen _ _ Hp).
    destruct f' as [|f']; [lia|]. cbn [find_end_group]. rewrite <- !app_assoc, Hst, W0, W1, W2, W3, W4, W5, Hst1.
    apply Hst2. lia.
  - discriminate.
Qed.

Lemma skip_field_stable w b r : skip_field w b = Ok r ->
  exists p, b = p ++ r /\ forall r', skip_field w (p ++ r') = Ok r'.
Proof.
  unfold skip_field.
  destruct (w =? 0); [|destruct (w =? 1); [|destruct (w =? 2); [|destruct (w =? 3); [|destruct (w =? 5)]]]].
  - destruct (decode_varint b) as [[x r0]|] eqn:D; [|discriminate]. intros H; injection H as <-.
    destruct (decode_varint_stable _ _ _ D) as (p & -> & _ & _ & Hst).
    exists p. split; [reflexivity|]. intros r'. now rewrite Hst.
  - destruct (skip_fixed 8 b) as [r0|] eqn:D; [|discriminate]. intros H; injection H as <-.
    destruct (skip_fixed_stable 8 _ _ ltac:(lia) D) as (p & -> & Hst).
    exists p. split; [reflexivity|]. intros r'. now rewrite Hst.
  - destruct (dec_bytes b) as [[x r0]|] eqn:D; [|discriminate]. intros H; injection H as <-.
    destruct (dec_bytes_stable _ _ _ D) as (p & -> & _ & _ & Hst).
    exists p. split; [reflexivity|]. intros r'. now rewrite Hst.
  - destruct (find_end_group (length b) 0 b) as [r0|] eqn:D; [|discriminate]. intros H; injection H as <-.
    destruct (find_end_group_stable _ _ _ _ D) as (p & -> & _ & Hst).
    exists p. split; [reflexivity|]. intros r'. rewrite Hst; [reflexivity|]. rewrite app_length. lia.
  - destruct (skip_fixed 4 b) as [r0|] eqn:D; [|discriminate]. intros H; injection H as <-.
    destruct (skip_fixed_stable 4 _ _ ltac:(lia) D) as (p & -> & Hst).
    exists p. split; [reflexivity|]. intros r'. now rewrite Hst.
  - discriminate.
Qed.

Lemma skip_field_ok_err w b : (exists r, skip_field w b = Ok r) \/ (exists e, skip_field w b = Err e).
Proof.
  unfold skip_field.
  destruct (w =? 0); [|destruct (w =? 1); [|destruct (w =? 2); [|destruct (w =? 3); [|destruct (w =? 5)]]]];
  try match goal with |- context [match ?o with Some _ => _ | None => _ end] => destruct o as [[]|] end;
  try match goal with |- context [match ?o with Some _ => _ | None => _ end] => destruct o end; eauto.
Qed.

(** ** The decoder loop *)

Section Loop.
  Context {S : Type}.
  Variable handle : S -> Z -> Z -> bytes -> fres S.
  Variable add_unrec : S -> bytes -> S.
  Hypothesis handle_progress : forall s t w b s' r,
    handle s t w b = FOk s' r -> (length r <= length b)%nat.
  Hypothesis handle_unknown : forall s t w b,
    handle s t w b = FUnknown -> forall s' b', handle s' t w b' = FUnknown.
  Hypothesis unrec_nil : forall s, add_unrec s [] = s.
  Hypothesis unrec_app : forall s u v, add_unrec s (u ++ v) = add_unrec (add_unrec s u) v.

  Let ustep := ustep handle add_unrec.
  Let uloop := uloop handle add_unrec.
  Definition uparse (s : S) (b : bytes) : res S := uloop (length b) s b.

  Lemma ustep_progress s b s' r : ustep s b = Ok (s', r) -> (length r < length b)%nat.
  Proof using handle add_unrec handle_progress. clear handle_unknown unrec_nil unrec_app.
    unfold ustep, Pb.ustep. destruct (decode_varint b) as [[x b1]|] eqn:D; [|discriminate].
    destruct (decode_varint_stable _ _ _ D) as (p & -> & Hp & _). rewrite app_length.
    assert (1 <= length p)%nat by (destruct p; [congruence|cbn; lia]).
    destruct (handle s (x / 8) (x mod 8) b1) eqn:Hh; [|discriminate|].
    - intros Hi; injection Hi as <- <-. apply handle_progress in Hh. lia.
    - destruct (skip_field (x mod 8) b1) eqn:Hs; try discriminate.
      intros Hi; injection Hi as <- <-. apply skip_field_stable in Hs as (q & -> & _).
      rewrite app_length. lia.
  Qed.

  Lemma uloop_fuel : forall f1 f2 s b, (length b <= f1)%nat -> (length b <= f2)%nat ->
    uloop f1 s b = uloop f2 s b.
  Proof using handle add_unrec handle_progress. clear handle_unknown unrec_nil unrec_app.
    induction f1 as [|f1 IH]; intros f2 s b H1 H2.
    - destruct b; [|cbn in H1; lia]. destruct f2; reflexivity.
    - destruct b as [|c b]; [destruct f2; reflexivity|].
      destruct f2 as [|f2]; [cbn in H2; lia|]. unfold uloop; cbn [Pb.uloop]; fold ustep; fold uloop.
      destruct (ustep s (c :: b)) as [[s' b']| | |] eqn:E; try reflexivity.
      apply ustep_progress in E. cbn [length] in *. apply IH; lia.
  Qed.

  Lemma uparse_nil s : uparse s [] = Ok s.
  Proof using handle add_unrec . clear handle_progress handle_unknown unrec_nil unrec_app. reflexivity. Qed.

  Lemma uparse_step s b : b <> [] ->
    uparse s b = match ustep s b with
                 | Ok (s', b') => uparse s' b'
                 | Err e => Err e | Panic => Panic | Fuel => Fuel end.
  Proof using handle add_unrec handle_progress. clear handle_unknown unrec_nil unrec_app.
    destruct b as [|c b]; [congruence|]. intros _. unfold uparse.
    cbn [length]. unfold uloop at 1; cbn [Pb.uloop]; fold ustep; fold uloop.
    destruct (ustep s (c :: b)) as [[s' b']| | |] eqn:E; try reflexivity.
    apply ustep_progress in E. cbn [length] in E. apply uloop_fuel; lia.
  Qed.

  Lemma uparse_ok_step s b s' b' : ustep s b = Ok (s', b') -> uparse s b = uparse s' b'.
  Proof using handle add_unrec handle_progress. clear handle_unknown unrec_nil unrec_app.
    intros H. rewrite uparse_step, H; [reflexivity|].
    intros ->. apply ustep_progress in H. cbn in H; lia.
  Qed.

  (** A field with number/wire type [x] handled by [handle]. *)
  Lemma ustep_field s x b1 s' b2 : 0 <= x < two64 ->
    handle s (x / 8) (x mod 8) b1 = FOk s' b2 ->
    ustep s (varint x ++ b1) = Ok (s', b2).
  Proof using handle add_unrec . clear handle_progress handle_unknown unrec_nil unrec_app.
    intros Hx H. unfold ustep, Pb.ustep. rewrite decode_varint_varint by assumption.
    now rewrite H.
  Qed.

  (** Bytes that are passed through unchanged as unknown fields. *)
  Definition unrec_ok (u : bytes) : Prop :=
    forall s r, uparse s (u ++ r) = uparse (add_unrec s u) r.

  Lemma unrec_ok_nil : unrec_ok [].
  Proof using handle add_unrec unrec_nil. clear handle_progress handle_unknown unrec_app. intros s r. cbn. now rewrite unrec_nil. Qed.

  Lemma unrec_ok_app u v : unrec_ok u -> unrec_ok v -> unrec_ok (u ++ v).
  Proof using handle add_unrec unrec_app. clear handle_progress handle_unknown unrec_nil.
    intros Hu Hv s r. rewrite <- app_assoc, Hu, Hv. now rewrite unrec_app.
  Qed.

  Lemma unrec_ok_field s x b1 b2 : 0 <= x < two64 ->
    handle s (x / 8) (x mod 8) b1 = FUnknown ->
    skip_field (x mod 8) b1 = Ok b2 ->
    unrec_ok (varint x ++ ztake (zlen b1 - zlen b2) b1).
  Proof using handle add_unrec handle_progress handle_unknown. clear unrec_nil unrec_app.
    intros Hx Hh Hs. apply skip_field_stable in Hs as (p & -> & Hst).
    rewrite zlen_app. replace (zlen p + zlen b2 - zlen b2) with (zlen p) by lia.
    assert (Hp : forall r, ztake (zlen p) (p ++ r) = p).
    { intros r. rewrite ztake_app_l by lia. apply ztake_all. lia. }
    rewrite Hp.
    intros s' r. apply uparse_ok_step. unfold ustep, Pb.ustep. rewrite <- app_assoc.
    rewrite decode_varint_varint by assumption.
    rewrite (handle_unknown _ _ _ _ Hh). rewrite Hst.
    rewrite zlen_app. replace (zlen p + zlen r - zlen r) with (zlen p) by lia.
    rewrite Hp. reflexivity.
  Qed.

  Lemma ustep_result s b : (exists s' r, ustep s b = Ok (s', r)) \/ (exists e, ustep s b = Err e).
  Proof using handle add_unrec . clear handle_progress handle_unknown unrec_nil unrec_app.
    unfold ustep, Pb.ustep. destruct (decode_varint b) as [[x b1]|]; [|eauto].
    destruct (handle s (x / 8) (x mod 8) b1); eauto.
    destruct (skip_field_ok_err (x mod 8) b1) as [[r ->]|[e ->]]; eauto.
  Qed.

  (** The decoder always returns a message or an error. *)
  Lemma uparse_result s b : (exists s', uparse s b = Ok s') \/ (exists e, uparse s b = Err e).
  Proof using handle add_unrec handle_progress. clear handle_unknown unrec_nil unrec_app.
    remember (length b) as n eqn:Hn. revert s b Hn.
    induction n as [n IH] using lt_wf_ind. intros s b ->.
    destruct b as [|c b]; [left; eauto using uparse_nil|].
    rewrite uparse_step by discriminate.
    destruct (ustep_result s (c :: b)) as [(s' & r & Hs)|(e & Hs)]; rewrite Hs; [|eauto].
    eapply IH; [|reflexivity]. eapply ustep_progress; eassumption.
  Qed.

  (** Induction principle: an invariant of the loop. *)
  Lemma uparse_inv (P : S -> Prop) :
    (forall s x b1 s' b2, P s -> 0 <= x < two64 ->
       handle s (x / 8) (x mod 8) b1 = FOk s' b2 -> P s') ->
    (forall s u, P s -> unrec_ok u -> P (add_unrec s u)) ->
    forall b s s', P s -> uparse s b = Ok s' -> P s'.
  Proof using handle add_unrec handle_progress handle_unknown. clear unrec_nil unrec_app.
    intros Hh Hu b. remember (length b) as n eqn:Hn. revert b Hn.
    induction n as [n IH] using lt_wf_ind. intros b -> s s' HP H.
    destruct b as [|c b]; [rewrite uparse_nil in H; congruence|].
    rewrite uparse_step in H by discriminate.
    destruct (ustep s (c :: b)) as [[s1 b1]| | |] eqn:E; try discriminate.
    assert (Hlt := E). apply ustep_progress in Hlt.
    assert (HP1 : P s1).
    { unfold ustep, Pb.ustep in E. destruct (decode_varint (c :: b)) as [[x b2]|] eqn:D; [|discriminate].
      destruct (decode_varint_stable _ _ _ D) as (p & _ & _ & Hx & _).
      destruct (handle s (x / 8) (x mod 8) b2) eqn:E2; [|discriminate|].
      - injection E as <- <-. eauto.
      - destruct (skip_field (x mod 8) b2) eqn:E3; try discriminate.
        injection E as <- <-. apply Hu; [assumption|]. eapply unrec_ok_field; eassumption. }
    eapply (IH (length b1)); [assumption|reflexivity|exact HP1|exact H].
  Qed.
End Loop.

(** ** pb.Data *)

Lemma dec_bytes_len b v r : dec_bytes b = Some (v, r) -> (length r <= length b)%nat.
Proof.
  intros H. apply dec_bytes_stable in H as (p & -> & _). rewrite app_length. lia.
Qed.
Lemma decode_varint_len b v r : decode_varint b = Some (v, r) -> (length r <= length b)%nat.
Proof.
  intros H. apply decode_varint_stable in H as (p & -> & _). rewrite app_length. lia.
Qed.

Ltac handle_cases :=
  repeat match goal with
  | H : context [if ?c then _ else _] |- _ => destruct c eqn:?
  | H : context [match ?o with Some _ => _ | None => _ end] |- _ => destruct o as [[]|] eqn:?
  | H : context [match ?o with Some _ => _ | None => _ end] |- _ => destruct o eqn:?
  | H : FOk _ _ = FOk _ _ |- _ => injection H as <- <-
  | H : FErr _ = _ |- _ => discriminate H
  | H : FUnknown = FOk _ _ |- _ => discriminate H
  | H : FOk _ _ = FUnknown |- _ => discriminate H
  end.

Lemma handle_data_progress d t w b d' r : handle_data d t w b = FOk d' r -> (length r <= length b)%nat.
Proof.
  unfold handle_data, handle_varint. intros H. handle_cases; eauto using dec_bytes_len, decode_varint_len.
Qed.

Lemma handle_data_unknown d t w b : handle_data d t w b = FUnknown ->
  forall d' b', handle_data d' t w b' = FUnknown.
Proof.
  unfold handle_data, handle_varint. intros H d' b'.
  repeat match goal with
  | H : context [if ?c then _ else _] |- _ => destruct c eqn:?
  end; handle_cases; try discriminate; try reflexivity.
Qed.

Lemma add_unrec_data_nil d : add_unrec_data d [] = d.
Proof. destruct d. unfold add_unrec_data, set_unrec. cbn. now rewrite app_nil_r. Qed.
Lemma add_unrec_data_app d u v : add_unrec_data d (u ++ v) = add_unrec_data (add_unrec_data d u) v.
Proof. destruct d. unfold add_unrec_data, set_unrec. cbn. now rewrite app_assoc. Qed.

Definition parse_data := uparse handle_data add_unrec_data.
Definition data_unrec_ok := unrec_ok handle_data add_unrec_data.

Definition in_u64 (z : Z) : Prop := 0 <= z < two64.
Definition opt_in_u64 (o : option Z) : Prop := match o with None => True | Some z => in_u64 z end.

(** Field ranges of a Go pb.Data value. *)
Definition fields_ok (d : pbdata) : Prop :=
  match d_type d with None => True | Some t => -2147483648 <= t < 2147483648 end /\
  match d_data d with None => True | Some v => zlen v < two64 end /\
  opt_in_u64 (d_filesize d) /\ Forall in_u64 (d_blocksizes d) /\
  opt_in_u64 (d_hashtype d) /\ opt_in_u64 (d_fanout d).

Lemma dec_packed_range f : forall b l, dec_packed f b = Some l -> Forall in_u64 l.
Proof.
  induction f as [|f IH]; intros [|c b] l H; cbn [dec_packed] in H; try discriminate;
    try (injection H as <-; constructor).
  destruct (decode_varint (c :: b)) as [[x r]|] eqn:D; [|discriminate].
  destruct (dec_packed f r) eqn:E; [|discriminate]. injection H as <-.
  constructor; [|eauto]. apply decode_varint_stable in D as (_ & _ & _ & ? & _). assumption.
Qed.

Definition good_data (d : pbdata) : Prop := fields_ok d /\ data_unrec_ok (d_unrec d).

Lemma parse_data_good b : forall d d', good_data d -> parse_data d b = Ok d' -> good_data d'.
Proof.
  apply (uparse_inv handle_data add_unrec_data handle_data_progress handle_data_unknown good_data).
  - intros s x b1 s' b2 [Hf Hu] Hx H. unfold handle_data, handle_varint in H.
    destruct s as [t dt fs bs ht fo un]. unfold good_data, fields_ok in *. cbn in Hf, Hu.
    destruct Hf as (Ht & Hd & Hfs & Hbs & Hht & Hfo).
    handle_cases; cbn; (split; [|assumption]); repeat split; try assumption;
    try (match goal with H : decode_varint _ = Some (?z, _) |- _ =>
      apply decode_varint_stable in H as (_ & _ & _ & ? & _) end);
    try (apply Forall_app; split); try assumption; eauto using dec_packed_range;
    try (match goal with H : dec_bytes _ = Some (?z, _) |- _ =>
      apply dec_bytes_stable in H as (_ & _ & _ & ? & _) end); try assumption;
    try apply i32_range; try (unfold in_u64; lia).
  - intros s u [Hf Hu] Hu'. split; [exact Hf|]. cbn.
    apply unrec_ok_app; auto using add_unrec_data_app.
Qed.

(** *** Field by field decoding of [marshal_data] *)

Ltac field_step :=
  apply (uparse_ok_step handle_data add_unrec_data handle_data_progress);
  apply ustep_field; [unfold two64; lia|].

Lemma parse_type d t r : -2147483648 <= t < 2147483648 ->
  parse_data d (varint 8 ++ varint (u64 t) ++ r) = parse_data (set_type (Some t) d) r.
Proof.
  intros Ht. field_step. change (8 / 8) with 1. change (8 mod 8) with 0.
  unfold handle_data, handle_varint. cbn [Z.eqb Pos.eqb].
  change (1 =? 1) with true. change (0 =? 0) with true. cbn match.
  rewrite decode_varint_varint by apply u64_range.
  replace (i32 (u64 t)) with t; [reflexivity|].
  unfold i32, u64, two64. lia.
Qed.

Lemma parse_dataf d o r : match o with None => True | Some v => zlen v < two64 end ->
  d_data d = None ->
  parse_data d (enc_optbytes 18 o ++ r) = parse_data (set_data o d) r.
Proof.
  intros Ho Hd. destruct o as [v|]; cbn [enc_optbytes app].
  2:{ destruct d; cbn in *; subst; reflexivity. }
  rewrite <- !app_assoc. field_step. change (18 / 8) with 2. change (18 mod 8) with 2.
  unfold handle_data. change (2 =? 1) with false. change (2 =? 2) with true. cbn match.
  now rewrite dec_bytes_enc.
Qed.

Lemma parse_filesize d o r : opt_in_u64 o -> d_filesize d = None ->
  parse_data d (enc_opt 24 o ++ r) = parse_data (set_filesize o d) r.
Proof.
  intros Ho Hd. destruct o as [v|]; cbn [enc_opt app].
  2:{ destruct d; cbn in *; subst; reflexivity. }
  rewrite <- !app_assoc. field_step. change (24 / 8) with 3. change (24 mod 8) with 0.
  unfold handle_data, handle_varint. change (3 =? 1) with false. change (3 =? 2) with false.
  change (3 =? 3) with true. change (0 =? 0) with true. cbn match.
  now rewrite decode_varint_varint.
Qed.

Lemma parse_blocksizes l : forall d r, Forall in_u64 l ->
  parse_data d (enc_rep 32 l ++ r) = parse_data (set_blocksizes (d_blocksizes d ++ l) d) r.
Proof.
  induction l as [|v l IH]; intros d r Hl.
  - cbn. rewrite app_nil_r. destruct d; reflexivity.
  - inversion_clear Hl. unfold enc_rep. cbn [flat_map]. fold (enc_rep 32 l). rewrite <- !app_assoc.
    transitivity (parse_data (set_blocksizes (d_blocksizes d ++ [v]) d) (enc_rep 32 l ++ r)).
    + field_step. change (32 / 8) with 4. change (32 mod 8) with 0.
      unfold handle_data, handle_varint. change (4 =? 1) with false. change (4 =? 2) with false.
      change (4 =? 3) with false. change (4 =? 4) with true.
      change (0 =? 2) with false. change (0 =? 0) with true. cbn match.
      now rewrite decode_varint_varint.
    + rewrite IH by assumption. cbn. rewrite <- app_assoc. reflexivity.
Qed.

Lemma parse_hashtype d o r : opt_in_u64 o -> d_hashtype d = None ->
  parse_data d (enc_opt 40 o ++ r) = parse_data (set_hashtype o d) r.
Proof.
  intros Ho Hd. destruct o as [v|]; cbn [enc_opt app].
  2:{ destruct d; cbn in *; subst; reflexivity. }
  rewrite <- !app_assoc. field_step. change (40 / 8) with 5. change (40 mod 8) with 0.
  unfold handle_data, handle_varint. change (5 =? 1) with false. change (5 =? 2) with false.
  change (5 =? 3) with false. change (5 =? 4) with false. change (5 =? 5) with true.
  change (0 =? 0) with true. cbn match.
  now rewrite decode_varint_varint.
Qed.

Lemma parse_fanout d o r : opt_in_u64 o -> d_fanout d = None ->
  parse_data d (enc_opt 48 o ++ r) = parse_data (set_fanout o d) r.
Proof.
  intros Ho Hd. destruct o as [v|]; cbn [enc_opt app].
  2:{ destruct d; cbn in *; subst; reflexivity. }
  rewrite <- !app_assoc. field_step. change (48 / 8) with 6. change (48 mod 8) with 0.
  unfold handle_data, handle_varint. change (6 =? 1) with false. change (6 =? 2) with false.
  change (6 =? 3) with false. change (6 =? 4) with false. change (6 =? 5) with false.
  change (6 =? 6) with true. change (0 =? 0) with true. cbn match.
  now rewrite decode_varint_varint.
Qed.

Lemma unmarshal_marshal d b : good_data d -> marshal_data d = Ok b -> unmarshal_data b = Ok d.
Proof.
  intros [(Ht & Hd & Hfs & Hbs & Hht & Hfo) Hu] Hm. destruct d as [t dt fs bs ht fo un]. cbn in *.
  unfold marshal_data in Hm. cbn [d_type d_data d_filesize d_blocksizes d_hashtype d_fanout d_unrec] in Hm. destruct t as [t|]; [|discriminate]. apply Ok_inj in Hm; subst b.
  unfold unmarshal_data. cbn [rbind].
  match goal with |- context [uloop handle_data add_unrec_data (length ?b) empty_data ?b] =>
    change (uloop handle_data add_unrec_data (length b) empty_data b) with (parse_data empty_data b) end.
  rewrite parse_type by assumption.
  rewrite parse_dataf by (assumption || reflexivity).
  rewrite parse_filesize by (assumption || reflexivity).
  rewrite parse_blocksizes by assumption.
  rewrite parse_hashtype by (assumption || reflexivity).
  rewrite parse_fanout by (assumption || reflexivity).
  unfold data_unrec_ok, unrec_ok in Hu. specialize (Hu
    (set_fanout fo (set_hashtype ht (set_blocksizes ([] ++ bs) (set_filesize fs (set_data dt (set_type (Some t) empty_data)))))) []).
  rewrite app_nil_r in Hu. fold parse_data in Hu. cbn [d_blocksizes set_filesize set_data set_type empty_data].
  rewrite Hu. reflexivity.
Qed.

Lemma unmarshal_good b d : unmarshal_data b = Ok d -> good_data d /\ exists t, d_type d = Some t.
Proof.
  unfold unmarshal_data. destruct (uloop _ _ _ _ _) as [d0| | |] eqn:E; cbn [rbind]; try discriminate.
  destruct (d_type d0) as [t|] eqn:Et; [|discriminate]. intros H; injection H as <-.
  split; [|eauto]. eapply parse_data_good; [|exact E].
  split; [|apply unrec_ok_nil, add_unrec_data_nil].
  repeat split; try exact I. constructor.
Qed.

Lemma unmarshal_stable b d : unmarshal_data b = Ok d ->
  exists b', marshal_data d = Ok b' /\ unmarshal_data b' = Ok d.
Proof.
  intros H. apply unmarshal_good in H as [Hg [t Ht]].
  unfold marshal_data at 1. rewrite Ht. eexists. split; [reflexivity|].
  apply unmarshal_marshal; [assumption|]. unfold marshal_data. now rewrite Ht.
Qed.

Lemma unmarshal_total b : (exists d, unmarshal_data b = Ok d) \/ (exists e, unmarshal_data b = Err e).
Proof.
  unfold unmarshal_data.
  destruct (uparse_result handle_data add_unrec_data handle_data_progress empty_data b) as [[d H]|[e H]];
    unfold uparse in H; rewrite H; cbn [rbind]; [|eauto].
  destruct (d_type d); eauto.
Qed.

Lemma good_data_nounrec d : fields_ok d -> d_unrec d = [] -> good_data d.
Proof. intros H1 H2. split; [assumption|]. rewrite H2. apply unrec_ok_nil, add_unrec_data_nil. Qed.

(** ** pb.Metadata *)

Lemma handle_meta_progress d t w b d' r : handle_meta d t w b = FOk d' r -> (length r <= length b)%nat.
Proof.
  unfold handle_meta. intros H. handle_cases; eauto using dec_bytes_len.
Qed.

Lemma unmarshal_meta_mime v : zlen v < two64 ->
  unmarshal_meta (enc_optbytes 10 (Some v)) = Ok (mkMeta (Some v) []).
Proof.
  intros H. change (unmarshal_meta (enc_optbytes 10 (Some v)))
    with (uparse handle_meta add_unrec_meta empty_meta (enc_optbytes 10 (Some v))).
  transitivity (uparse handle_meta add_unrec_meta (mkMeta (Some v) []) []); [|reflexivity].
  apply uparse_ok_step; [exact handle_meta_progress|]. cbn [enc_optbytes].
  apply ustep_field; [unfold two64; lia|]. change (10 / 8) with 1. change (10 mod 8) with 2.
  unfold handle_meta. change (1 =? 1) with true. change (2 =? 2) with true. cbn match.
  pose proof (dec_bytes_enc v [] H) as E. rewrite app_nil_r in E. now rewrite E.
Qed.
