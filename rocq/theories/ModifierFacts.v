(** Statements about the modifier in the form used in the property file, and witnesses. *)
From Verif Require Import Base Pb PbProofs FSNode FSNodeProofs Dag DagProofs Builder Trickle Importer Reader Modifier
  SpecFile SpecAppend SpecReader SpecModifier BuilderProofs TrickleProofs ImportProofs AppendProofs AppendRun ReaderProofs ReaderRun ReaderProofs2
  ReaderWitness GrowProofs ModifierProofs TruncateProofs ModifierRun.

(** A chunker loses nothing and makes no oversized chunks. *)
Definition chunker_ok (split : bytes -> list bytes) : Prop := forall b, concat (split b) = b /\ source_ok BlockSizeLimit (split b).

(** ** Overwriting *)

Definition written (n : node) (off : Z) (b : bytes) : modifier :=
  mkMod (Some n) off (zlen b) (Some b) (m_prefix (NewDagModifier n)) (m_raw (NewDagModifier n)) None.

Lemma WriteAt_fresh split wbsize n c b off w : file_content n c -> zlen c < 9223372036854775808 -> 0 <= off -> off + zlen b <= zlen c ->
  WriteAt split wbsize b off (NewDagModifier n, w) =
  (do _ <- (if wbsize <? zlen b then Sync split else ret tt) ;; ret (zlen b)) (written n off b, w).
Proof.
  intros (cs & Hcs & ->) Hl Ho He. pose proof (zlen_nonneg b) as Hb. unfold WriteAt. unfold bind at 1, get_mod at 1. cbn [fst NewDagModifier m_buf m_off].
  rewrite (u64_small off) by (unfold two64; lia).
  assert (W : mWrite split wbsize b (m_set_start off (NewDagModifier n), w) = (do _ <- (if wbsize <? zlen b then Sync split else ret tt) ;; ret (zlen b)) (written n off b, w)).
  { unfold mWrite. unfold bind at 1, upd_mod at 1. cbn [fst snd NewDagModifier m_set_start m_set_read m_set_buf m_set_off m_buf m_off m_start m_node m_prefix m_raw app].
    unfold bind at 1, get_mod at 1. cbn [fst m_buf]. rewrite u64_small by (unfold two64; lia). reflexivity. }
  destruct (off =? 0) eqn:E.
  - apply Z.eqb_eq in E. subst off. unfold bind at 1. cbn [ret]. exact W.
  - unfold bind at 1. unfold bind at 1.
    assert (S : mSize (NewDagModifier n, w) = (Ok (zlen (concat cs)), (NewDagModifier n, w))).
    { unfold mSize, bind, cur_node, lift, get_mod. cbn [fst snd NewDagModifier m_node m_buf]. rewrite (fileSize_dag n cs Hcs Hl). cbn [fst m_buf]. unfold ret.
      pose proof (zlen_nonneg (concat cs)). now rewrite i64_small by lia. }
    rewrite S. replace (zlen (concat cs) <? off) with false by lia. unfold bind at 1. cbn [ret]. unfold bind at 1. rewrite Sync_none by reflexivity.
    unfold upd_mod. cbn [fst snd]. exact W.
Qed.

Definition write_back split wbsize b off n w : res node * mst :=
  match WriteAt split wbsize b off (NewDagModifier n, w) with
  | (Ok _, s) => mGetNode split s
  | (Err e, s) => (Err e, s)
  | (Panic, s) => (Panic, s)
  | (Fuel, s) => (Fuel, s)
  end.

Lemma write_back_spec split wbsize b off n c w : chunker_ok split -> file_content n c -> zlen c < 9223372036854775808 -> 0 <= off -> off + zlen b <= zlen c ->
  match write_back split wbsize b off n w with
  | (Ok n', (m', w')) => file_content n' (put c off b) /\ same_shape n n' /\ derived w n w' n' /\ stored w' n' = true /\
      (tsizes_exact n -> canonical_leaves n -> tsizes_exact n') /\ (growable K n -> growable K n')
  | (Err _, _) => ~ good_store w n
  | _ => False
  end.
Proof.
  intros Hs Hf Hl Ho He. pose proof (zlen_nonneg b) as Hb. unfold write_back. rewrite (WriteAt_fresh split wbsize n c b off w Hf Hl Ho He).
  assert (S := Sync_spec split Hs (written n off b) w n c b eq_refl Hf eq_refl Hl ltac:(cbn; lia) ltac:(cbn; lia) ltac:(cbn; lia)).
  assert (F : forall m' w', synced (written n off b) w n c b m' w' -> exists n', m_node m' = Some n' /\ m_buf m' = None /\
    file_content n' (put c off b) /\ same_shape n n' /\ derived w n w' n' /\ stored w' n' = true /\ (tsizes_exact n -> canonical_leaves n -> tsizes_exact n') /\ (growable K n -> growable K n')).
  { intros m' w' (n' & -> & S1 & S2 & S3 & S4 & S5 & S6 & S7). cbn [written m_start] in *. exists n'. split; [reflexivity|]. split; [reflexivity|]. split; [exact S1|].
    split; [apply S6; lia|]. split; [exact S2|]. split; [exact S3|]. split; [intros H1 H2; apply S7; auto; lia|exact S5]. }
  unfold bind at 1. destruct (wbsize <? zlen b).
  - destruct (Sync split (written n off b, w)) as [[u|e| |] [m' w']]; try contradiction; [|exact S].
    destruct (F m' w' S) as (n' & F1 & F2 & F3). cbn [ret]. unfold mGetNode, bind. rewrite Sync_none by exact F2. cbn [fst]. rewrite F1. exact F3.
  - cbn [ret]. unfold mGetNode, bind. destruct (Sync split (written n off b, w)) as [[u|e| |] [m' w']]; try contradiction; [|exact S].
    destruct (F m' w' S) as (n' & F1 & F2 & F3). cbn [fst]. rewrite F1. exact F3.
Qed.

Lemma overwrite_exact : forall split wbsize b off n c w n' s', chunker_ok split -> file_content n c -> zlen c < 9223372036854775808 ->
  0 <= off -> off + zlen b <= zlen c -> write_back split wbsize b off n w = (Ok n', s') ->
  file_content n' (put c off b) /\ zlen (put c off b) = zlen c /\ same_shape n n' /\ (available w n -> serves w -> available (snd s') n') /\
  (tsizes_exact n -> canonical_leaves n -> tsizes_exact n').
Proof.
  intros split wbsize b off n c w n' [m' w'] Hs Hf Hl Ho He E. pose proof (write_back_spec split wbsize b off n c w Hs Hf Hl Ho He) as S. rewrite E in S.
  destruct S as (S1 & S2 & S3 & S4 & S5 & _). split; [exact S1|]. split; [rewrite put_length by assumption; lia|]. split; [exact S2|]. split; [|exact S5].
  intros Ha Hse m Hm. destruct S3 as (G & a & A & B). inversion Hm as [|? l ? Hl' Hr]; subst; cbn [snd].
  - apply get_iff. split; [exact S4|]. eapply wgrow_serves; eassumption.
  - destruct (B l m Hl' Hr) as [(l0 & Hl0 & Hr0)|Hi].
    + eapply wgrow_get; [exact G|]. apply Ha. eapply reach_link; eassumption.
    + apply get_iff. split; [|eapply wgrow_serves; eassumption]. apply stored_added. rewrite A, map_app. apply in_or_app. now right.
Qed.

Lemma overwrite_total : forall split wbsize b off n c w, chunker_ok split -> file_content n c -> zlen c < 9223372036854775808 ->
  0 <= off -> off + zlen b <= zlen c ->
  (exists n' s', write_back split wbsize b off n w = (Ok n', s')) \/ (~ good_store w n /\ exists e s', write_back split wbsize b off n w = (Err e, s')).
Proof.
  intros split wbsize b off n c w Hs Hf Hl Ho He. pose proof (write_back_spec split wbsize b off n c w Hs Hf Hl Ho He) as S.
  destruct (write_back split wbsize b off n w) as [[n'|e| |] [m' w']]; try contradiction; eauto.
Qed.

(** The bytes of [put] inside the file. *)
Lemma put_outside : forall c off b i, 0 <= off -> off + zlen b <= zlen c -> ~ (off <= Z.of_nat i < off + zlen b) -> nth_error (put c off b) i = nth_error c i.
Proof.
  intros c off b i Ho He Hi. unfold put. rewrite pad_small by (pose proof (zlen_nonneg b); lia).
  assert (Hlt : length (ztake off c) = Z.to_nat off) by (unfold ztake; rewrite firstn_length; unfold zlen in *; lia).
  destruct (Z_lt_ge_dec (Z.of_nat i) off) as [H|H].
  - rewrite nth_error_app1 by lia. unfold ztake. rewrite <- (firstn_skipn (Z.to_nat off) c) at 2. rewrite nth_error_app1; [reflexivity|]. rewrite firstn_length. unfold zlen in *. lia.
  - rewrite nth_error_app2 by lia. rewrite Hlt. rewrite nth_error_app2 by (unfold zlen in *; lia).
    unfold zdrop. rewrite <- (firstn_skipn (Z.to_nat (off + zlen b)) c) at 2. rewrite nth_error_app2 by (rewrite firstn_length; unfold zlen in *; lia).
    f_equal. rewrite firstn_length. unfold zlen in *. lia.
Qed.
Lemma put_inside : forall c off b i, 0 <= off -> (i < length b)%nat -> nth_error (put c off b) (Z.to_nat off + i) = nth_error b i.
Proof.
  intros c off b i Ho Hi. unfold put. assert (Hlt : length (ztake off (pad c off)) = Z.to_nat off).
  { unfold ztake. rewrite firstn_length. pose proof (pad_len c off) as P. unfold zlen in *. lia. }
  rewrite nth_error_app2 by lia. rewrite Hlt. replace (Z.to_nat off + i - Z.to_nat off)%nat with i by lia. rewrite nth_error_app1 by lia. reflexivity.
Qed.

(** ** Truncating *)

Definition truncate_to split size n w : res node * mst :=
  match mTruncate split size (NewDagModifier n, w) with
  | (Ok _, s) => mGetNode split s
  | (Err e, s) => (Err e, s)
  | (Panic, s) => (Panic, s)
  | (Fuel, s) => (Fuel, s)
  end.

Lemma truncate_to_spec split size n c w : file_content n c -> zlen c < 9223372036854775808 -> 0 <= size < 9223372036854775808 -> (zlen c < size -> growable K n) ->
  match truncate_to split size n w with
  | (Ok n', (m', w')) => file_content n' (resize c size) /\ derived w n w' n' /\ (n' = n \/ stored w' n' = true) /\
      node_prefix n' = node_prefix n /\ (tsizes_exact n -> tsizes_exact n') /\ (growable K n -> growable K n')
  | (Err _, _) => ~ good_store w n
  | _ => False
  end.
Proof.
  intros Hf Hl Hs Hg. unfold truncate_to. pose proof (zlen_nonneg c) as H0. destruct Hf as (cs & Hcs & Ec). assert (Hf : file_content n c) by (exists cs; auto).
  unfold mTruncate. unfold bind at 1. rewrite Sync_none by reflexivity. unfold bind at 1.
  assert (S : mSize (NewDagModifier n, w) = (Ok (zlen c), (NewDagModifier n, w))).
  { unfold mSize, bind, cur_node, lift, get_mod. cbn [fst snd NewDagModifier m_node m_buf]. rewrite (fileSize_dag n cs Hcs) by (rewrite <- Ec; exact Hl). cbn [fst m_buf]. unfold ret.
    rewrite <- Ec. now rewrite i64_small by lia. }
  rewrite S. destruct (size =? zlen c) eqn:E1.
  - cbn [ret]. unfold mGetNode, bind. rewrite Sync_none by reflexivity. cbn [fst NewDagModifier m_node]. apply Z.eqb_eq in E1. subst size. unfold resize. rewrite pad_small, ztake_all by lia.
    split; [exact Hf|]. split; [apply derived_refl|]. auto.
  - destruct (zlen c <? size) eqn:E2.
    + rewrite i64_small by lia. pose proof (expand_spec (NewDagModifier n) w n c (size - zlen c) eq_refl Hf (Hg ltac:(lia)) ltac:(lia)) as X.
      destruct (expandSparse _ _) as [[u|e| |] [m' w']]; try contradiction; [|exact X]. destruct X as (n' & -> & X1 & X2 & X3 & X4 & X5 & X6).
      unfold mGetNode, bind. rewrite Sync_none by reflexivity. cbn [fst m_set_node m_node]. rewrite pad_zeros in X1 by lia.
      split; [unfold resize; rewrite ztake_all by (rewrite pad_len; lia); exact X1|]. split; [exact X3|]. auto.
    + unfold bind at 1, truncate_cur at 1. cbn [fst snd NewDagModifier m_node]. rewrite u64_small by (unfold two64; lia).
      pose proof (dagTruncate_spec (weight n) n cs size w (height_weight n) Hcs ltac:(rewrite <- Ec; lia) ltac:(rewrite <- Ec; lia)) as T.
      destruct (dagTruncate (weight n) n size w) as [[nn|e| |] w2]; destruct T as [Tg T]; cbn [fst snd] in *; try contradiction; [|exact T].
      destruct (tr_dag _ _ _ _ _ _ T) as (cs' & T1 & T2). destruct (tr_added _ _ _ _ _ _ T) as (a & T3 & T4).
      unfold bind at 1. match goal with |- context [mod_add nn (?mm, w2)] => pose proof (mod_add_spec mm w2 nn) as B; destruct (mod_add nn (mm, w2)) as [[u6|e| |] [m6 w6]] eqn:Em end; try contradiction.
      2:{ destruct B as (_ & _ & B). intros (C & _). apply B. eapply wgrow_can_add; [exact Tg|exact C]. }
      destruct B as (Em6 & B1 & B2 & B3). assert (Es : seal nn = nn) by (eapply file_dag_seal, T1). rewrite Es in *.
      unfold upd_mod. cbn [fst snd]. unfold mGetNode, bind. rewrite Sync_none by (rewrite Em6; clear; destruct n; reflexivity). cbn [fst m_set_node m_node].
      split; [exists cs'; split; [exact T1|]; rewrite T2, <- Ec; unfold resize; now rewrite pad_small by lia|].
      split; [eapply derived_grow; [split; [exact Tg|exists a; auto]|exact B1]|]. split; [now right|]. split; [apply (tr_prefix _ _ _ _ _ _ T)|].
      split; [apply (tr_exact _ _ _ _ _ _ T)|]. apply (tr_loose _ _ _ _ _ _ T).
Qed.

Lemma truncate_exact : forall split size n c w n' s', file_content n c -> zlen c < 9223372036854775808 -> 0 <= size < 9223372036854775808 ->
  (zlen c < size -> growable K n) -> truncate_to split size n w = (Ok n', s') ->
  file_content n' (resize c size) /\ recorded_size n' size /\ (available w n -> serves w -> available (snd s') n') /\
  (tsizes_exact n -> tsizes_exact n') /\ node_prefix n' = node_prefix n.
Proof.
  intros split size n c w n' [m' w'] Hf Hl Hs Hg E. pose proof (truncate_to_spec split size n c w Hf Hl Hs Hg) as S. rewrite E in S.
  destruct S as (S1 & S2 & S3 & S4 & S5 & _). split; [exact S1|]. split.
  - assert (Ez : zlen (resize c size) = size) by (unfold resize; rewrite zlen_ztake by (rewrite pad_len; lia); reflexivity).
    destruct S1 as (cs & S1 & Ec). rewrite <- Ez, Ec. apply file_dag_recorded; [exact S1|]. rewrite <- Ec, Ez. lia.
  - split; [|auto]. intros Ha Hse m Hm. cbn [snd]. destruct S2 as (G & a & A & B). inversion Hm as [|? l ? Hl' Hr]; subst.
    + destruct S3 as [->|S3]; [eapply wgrow_get; [exact G|apply Ha; constructor]|]. apply get_iff. split; [exact S3|]. eapply wgrow_serves; eassumption.
    + destruct (B l m Hl' Hr) as [(l0 & Hl0 & Hr0)|Hi].
      * eapply wgrow_get; [exact G|]. apply Ha. eapply reach_link; eassumption.
      * apply get_iff. split; [|eapply wgrow_serves; eassumption]. apply stored_added. rewrite A, map_app. apply in_or_app. now right.
Qed.
Lemma truncate_total : forall split size n c w, file_content n c -> zlen c < 9223372036854775808 -> 0 <= size < 9223372036854775808 ->
  (zlen c < size -> growable K n) ->
  (exists n' s', truncate_to split size n w = (Ok n', s')) \/ (~ good_store w n /\ exists e s', truncate_to split size n w = (Err e, s')).
Proof.
  intros split size n c w Hf Hl Hs Hg. pose proof (truncate_to_spec split size n c w Hf Hl Hs Hg) as S.
  destruct (truncate_to split size n w) as [[n'|e| |] [m' w']]; try contradiction; eauto.
Qed.
Lemma resize_prefix : forall c size, 0 <= size <= zlen c -> resize c size = firstn (Z.to_nat size) c.
Proof. intros c size H. unfold resize. now rewrite pad_small by lia. Qed.

(** ** Histories *)

Lemma modifier_is_file : forall split wbsize n c w ops, chunker_ok split -> file_content n c -> growable K n -> available w n -> can_add w -> serves w ->
  zlen c < 9223372036854775808 -> all_allowed (mkF c 0 false NoReader true) ops ->
  exists h s, mod_run split wbsize ops (NewDagModifier n, w) = Some (h, s) /\ map (fun x => fst (fst x)) h = ops /\ like_file (mkF c 0 false NoReader true) h.
Proof. intros split wbsize n c w ops Hs H1 H2 H3 H4 H5 H6 Ha. eapply run_like_file; [exact Hs|now apply minv_new|exact Ha]. Qed.

Lemma like_file_last : forall h st op o w, like_file st (h ++ [(op, o, w)]) -> m_answer w (m_after st (map (fun x => fst (fst x)) h)) op o.
Proof.
  induction h as [|[[op1 o1] w1] h IH]; intros st op o w H; cbn in H; [tauto|]. destruct H as [_ H]. apply IH in H. exact H.
Qed.

Lemma writeat_then_node : forall split wbsize n c w ops b off, chunker_ok split -> file_content n c -> growable K n -> available w n -> can_add w -> serves w ->
  zlen c < 9223372036854775808 -> all_allowed (mkF c 0 false NoReader true) (ops ++ [MWriteAt b off; MGetNode]) ->
  exists h s n', mod_run split wbsize (ops ++ [MWriteAt b off; MGetNode]) (NewDagModifier n, w) = Some (h ++ [(MGetNode, BNode n', snd s)], s) /\
    file_content n' (put (f_content (m_after (mkF c 0 false NoReader true) ops)) off b) /\ available (snd s) n'.
Proof.
  intros split wbsize n c w ops b off Hs H1 H2 H3 H4 H5 H6 Ha.
  destruct (modifier_is_file split wbsize n c w _ Hs H1 H2 H3 H4 H5 H6 Ha) as (h & s & R1 & R2 & R3).
  destruct h as [|[[op o] w1] h1 _] using rev_ind; [destruct ops; discriminate|].
  rewrite map_app in R2. cbn [map fst] in R2. change (ops ++ [MWriteAt b off; MGetNode]) with (ops ++ [MWriteAt b off] ++ [MGetNode]) in R2. rewrite app_assoc in R2. apply app_inj_tail in R2 as [E ->].
  pose proof (like_file_last _ _ _ _ _ R3) as (n' & -> & A1 & A2). rewrite E in A1.
  assert (Ew : w1 = snd s).
  { clear - R1. revert R1. generalize (NewDagModifier n, w) as s0. generalize (ops ++ [MWriteAt b off; MGetNode]) as l. intros l. revert h1.
    induction l as [|op l IH]; intros h1 s0 R; cbn in R; [destruct h1; discriminate|].
    destruct (mod_step split wbsize op s0) as [[o1 s1]|]; [|discriminate]. destruct (mod_run split wbsize l s1) as [[h2 s2]|] eqn:E2; [|discriminate].
    destruct h1 as [|x h1]; injection R as E1 E3.
    - subst. destruct l as [|op2 l]; [cbn in E2; congruence|]. cbn in E2. destruct (mod_step _ _ _ _) as [[? ?]|]; [|discriminate]. destruct (mod_run _ _ _ _) as [[? ?]|]; discriminate.
    - subst. eapply IH. exact E2. }
  exists h1, s, n'. split; [rewrite <- Ew; exact R1|]. split; [|rewrite <- Ew; exact A2].
  unfold m_after in A1. rewrite fold_left_app in A1. cbn [fold_left] in A1. unfold m_after. destruct (fold_left m_next ops _). exact A1.
Qed.

Lemma all_allowed_app ops ops' : forall s, all_allowed s ops -> all_allowed (m_after s ops) ops' -> all_allowed s (ops ++ ops').
Proof. induction ops as [|op ops IH]; intros s H1 H2; [exact H2|]. cbn in *. destruct H1. split; [assumption|]. now apply IH. Qed.

Lemma truncate_seek_read : forall split wbsize n c w ops size off k, chunker_ok split -> file_content n c -> growable K n -> available w n -> can_add w -> serves w ->
  zlen c < 9223372036854775808 -> all_allowed (mkF c 0 false NoReader true) ops ->
  0 <= off <= size -> size < 9223372036854775808 -> off <> f_pos (m_after (mkF c 0 false NoReader true) ops) ->
  exists h s eof w', mod_run split wbsize (ops ++ [MTruncate size; MSeek off 0; MRead k]) (NewDagModifier n, w) =
    Some (h ++ [(MRead k, BData (read_at (resize (f_content (m_after (mkF c 0 false NoReader true) ops)) size) off k) eof, w')], s).
Proof.
  intros split wbsize n c w ops size off k Hs H1 H2 H3 H4 H5 H6 Ha Ho Hz Hp.
  set (st := m_after (mkF c 0 false NoReader true) ops) in *.
  assert (Ha' : all_allowed (mkF c 0 false NoReader true) (ops ++ [MTruncate size; MSeek off 0; MRead k])).
  { apply all_allowed_app; [exact Ha|]. fold st. destruct st as [c1 p1 mv rd cl]. cbn [f_pos] in Hp. cbn [all_allowed m_next m_allowed]. split; [lia|]. split.
    - split; [now left|]. unfold m_target. change (0 =? 0) with true. cbv iota. lia.
    - split; [|exact I]. cbn [f_reader]. unfold m_target. change (0 =? 0) with true. cbv iota. replace (off =? p1) with false by lia. unfold repositioned, outdated. destruct rd, (size =? zlen c1), (zlen (resize c1 size) <? off); cbn; discriminate. }
  destruct (modifier_is_file split wbsize n c w _ Hs H1 H2 H3 H4 H5 H6 Ha') as (h & s & R1 & R2 & R3).
  destruct h as [|[[op o] w1] h1 _] using rev_ind; [destruct ops; discriminate|].
  rewrite map_app in R2. cbn [map fst] in R2. change (ops ++ [MTruncate size; MSeek off 0; MRead k]) with (ops ++ [MTruncate size; MSeek off 0] ++ [MRead k]) in R2. rewrite app_assoc in R2. apply app_inj_tail in R2 as [E ->].
  pose proof (like_file_last _ _ _ _ _ R3) as (b & e & pos' & -> & A1). rewrite E in A1.
  unfold m_after in A1. rewrite fold_left_app in A1. cbn [fold_left] in A1. change (fold_left m_next ops _) with st in A1.
  destruct st as [c1 p1 mv rd cl]. cbn [m_next f_content f_pos] in *. unfold m_target in A1. change (0 =? 0) with true in A1. cbv iota in A1.
  assert (Hl : pad (resize c1 size) off = resize c1 size).
  { apply pad_small. unfold resize. assert (zlen (pad c1 size) >= size). { unfold pad, zlen. rewrite app_length, repeat_length. unfold zlen in *. lia. }
    rewrite zlen_ztake by lia. lia. }
  rewrite Hl in A1. exists h1, s, e, w1. rewrite R1. inversion A1; subst. reflexivity.
Qed.

(** ** Old versions *)

(** The state after a call, whatever its outcome. *)
Definition mod_after (split : bytes -> list bytes) (wbsize : Z) (op : mop) (s : mst) : mst :=
  match op with
  | MWrite b => snd (mWrite split wbsize b s)
  | MWriteAt b off => snd (WriteAt split wbsize b off s)
  | MSeek off wh => snd (mSeek split off wh s)
  | MTruncate n => snd (mTruncate split n s)
  | MRead k => snd (mRead split k s)
  | MSize => snd (mSize s)
  | MSync => snd (Sync split s)
  | MGetNode => snd (mGetNode split s)
  end.
Definition mod_history split wbsize (ops : list mop) (s : mst) : mst := fold_left (fun s op => mod_after split wbsize op s) ops s.

Lemma mod_step_after split wbsize op s o s' : mod_step split wbsize op s = Some (o, s') -> mod_after split wbsize op s = s'.
Proof.
  unfold mod_step, mod_after. destruct op;
    match goal with |- context [match ?x with (_, _) => _ end] => destruct x as [[?|?| |] ?] end; try discriminate; try (now intros [= _ <-]).
  destruct a. now intros [= _ <-].
Qed.
Lemma mod_after_grow split wbsize op s : wgrow (snd s) (snd (mod_after split wbsize op s)).
Proof.
  destruct op; cbn [mod_after]; [apply grows_Write|apply grows_WriteAt|apply grows_Seek|apply grows_Truncate|apply grows_Read|apply grows_Size|apply grows_Sync|apply grows_GetNode].
Qed.
Lemma mod_history_grow split wbsize ops : forall s, wgrow (snd s) (snd (mod_history split wbsize ops s)).
Proof.
  induction ops as [|op ops IH]; intros s; [apply wgrow_refl|]. eapply wgrow_trans; [apply mod_after_grow|]. apply IH.
Qed.

Lemma history_keeps : forall split wbsize ops s, keeps (snd s) (snd (mod_history split wbsize ops s)).
Proof. intros split wbsize ops s m H. eapply wgrow_get; [apply mod_history_grow|exact H]. Qed.

Lemma old_version_reads : forall split wbsize before after s root content reads,
  let w1 := snd (mod_history split wbsize before s) in
  let w2 := snd (mod_history split wbsize (before ++ after) s) in
  file_content root content -> zlen content < 9223372036854775808 -> available w1 root -> Forall op_ok reads ->
  dserv_get w2 root = Ok root /\
  exists r t r' pos', NewDagReader w2 root = Ok r /\ Size r = zlen content /\
    reader_run (map (fun op => (w2, op)) reads) r = Some (t, r') /\ map fst t = reads /\ file_run content 0 t pos'.
Proof.
  intros split wbsize before after s root content reads w1 w2 Hf Hl Ha Hr.
  assert (Ha2 : available w2 root).
  { intros m Hm. unfold w2, mod_history. rewrite fold_left_app. apply (history_keeps split wbsize after). now apply Ha. }
  split; [apply Ha2; constructor|]. eapply open_file; [exact Hf|exact Hl| |exact Hr]. intros l m Hl' Hm. apply Ha2. eapply reach_link; eassumption.
Qed.

(** ** Witnesses *)

(** One byte per chunk. *)
Definition bytewise (b : bytes) : list bytes := map (fun x => [x]) b.
Lemma bytewise_ok : chunker_ok bytewise.
Proof.
  intros b. split.
  - induction b as [|x b IH]; [reflexivity|]. unfold bytewise in *. cbn. now rewrite IH.
  - unfold bytewise, source_ok. induction b as [|x b IH]; constructor; [|exact IH]. vm_compute. discriminate.
Qed.
Definition wb : Z := 2097152.
(** All Adds succeed, but nothing was added yet and everything asked for is there. *)
Definition open_abcde : mst := (NewDagModifier abcde, full).
Definition got (s : res node * mst) : option bytes := match s with (Ok n, _) => tree_read n | _ => None end.

(** Which files can grow. *)
Lemma few_links_growable : forall p b ls f, FSNodeFromBytes b = Ok f -> getType f = TFile -> getData f = [] -> zlen ls <= K -> growable K (NProto p b ls).
Proof.
  intros p b ls f Hf Ht Hd Hl. assert (G : forall i l, nth_error ls i = Some l -> K <= Z.of_nat i -> False).
  { intros i l Hn Hi. assert (i < length ls)%nat by (apply nth_error_Some; congruence). unfold zlen in Hl. lia. }
  constructor; cbn [node_links].
  - exists p, b, ls, f. auto.
  - auto.
  - intros i l Hn Hi. destruct (G i l Hn Hi).
  - intros i l Hn Hi. destruct (G i l Hn Hi).
Qed.
Lemma loose_mono k r (leaf leaf' inner inner' : node -> Prop) : (forall n, leaf n -> leaf' n) -> (forall n, inner n -> inner' n) ->
  forall n D, loose k r leaf inner D n -> loose k r leaf' inner' D n.
Proof.
  intros HL HI n. induction n as [p d|p b ls IH] using DagProofs.node_ind'; intros D H; apply loose_inv in H as (H1 & H2 & H3 & H4); constructor; auto.
  - intros i l Hn Hi. apply HL. eauto.
  - cbn [node_links] in *. intros i l Hn. now destruct i.
  - intros i l Hn Hi. apply HL. eauto.
  - intros i l Hn Hi. cbn [node_links] in Hn. rewrite Forall_forall in IH. apply (IH l); [eapply nth_error_In, Hn|]. now apply (H4 i l).
Qed.
Lemma trickle_growable : forall raw e n, loose_file K 4 raw e (-1) n -> growable K n.
Proof.
  intros raw e n. apply loose_mono; [auto|]. intros m (q & b & ls & f & H1 & _ & H2). exists q, b, ls, f. auto.
Qed.

Lemma abcde_growable : growable K abcde.
Proof. eapply few_links_growable; [vm_compute; reflexivity| | |]; vm_compute; try reflexivity; discriminate. Qed.
Lemma full_available n : available full n.
Proof. intros m _. reflexivity. Qed.
Lemma full_good n : good_store full n.
Proof. split; [intros i; reflexivity|]. split; [intros m; reflexivity|apply full_below]. Qed.

Definition last_node (x : option (list (mop * mobs * world) * mst)) : option bytes :=
  match x with
  | Some (h, _) => match rev h with (MGetNode, BNode n, _) :: _ => tree_read n | _ => None end
  | None => None
  end.

Lemma last_node_sound x d : last_node x = Some d -> exists h s n w, x = Some (h ++ [(MGetNode, BNode n, w)], s) /\ tree_bytes n d.
Proof.
  unfold last_node. destruct x as [[h s]|]; [|discriminate]. destruct (rev h) as [|[[op o] w] r] eqn:E; [discriminate|].
  destruct op; try discriminate. destruct o; try discriminate. intros H. exists (rev r), s, n, w. split; [|now apply tree_read_sound].
  rewrite <- (rev_involutive h), E. reflexivity.
Qed.

(** Growing a file of one block. *)
Definition inline_abc : node := NProto pbp [x08; x02; x12; x03; x61; x62; x63; x18; x03] [].
Lemma inline_abc_content : file_content inline_abc [x61; x62; x63].
Proof.
  exists [[x61; x62; x63]]. split; [|reflexivity]. eapply fd_leaf with (fs := mkData (Some 2) (Some [x61; x62; x63]) (Some 3) [] None None []); try (vm_compute; reflexivity). now left.
Qed.
Lemma grow_inline_refuted : exists root content h s n w,
  file_content root content /\ good_store full root /\ content = [x61; x62; x63] /\
  mod_run bytewise wb [MSeek 3 0; MWrite [x64]; MGetNode] (NewDagModifier root, full) = Some (h ++ [(MGetNode, BNode n, w)], s) /\
  tree_bytes n [x64] /\ recorded_size n 4.
Proof.
  exists inline_abc, [x61; x62; x63].
  assert (X : exists h s n w, mod_run bytewise wb [MSeek 3 0; MWrite [x64]; MGetNode] (NewDagModifier inline_abc, full) = Some (h ++ [(MGetNode, BNode n, w)], s) /\ tree_bytes n [x64] /\ recorded_size n 4).
  { set (n := ok_node (fst (mGetNode bytewise (mod_history bytewise wb [MSeek 3 0; MWrite [x64]] (NewDagModifier inline_abc, full))))).
    set (s := snd (mGetNode bytewise (mod_history bytewise wb [MSeek 3 0; MWrite [x64]] (NewDagModifier inline_abc, full)))).
    exists [(MSeek 3 0, BInt 3, full); (MWrite [x64], BInt 1, full)], s, n, (snd s). split; [vm_compute; reflexivity|].
    split; [apply tree_read_sound|apply recorded_dec]; vm_compute; reflexivity. }
  destruct X as (h & s & n & w & X). exists h, s, n, w. split; [apply inline_abc_content|]. split; [apply full_good|]. split; [reflexivity|exact X].
Qed.

(** Growing a file of one raw block: an error, after which the modifier is unusable. *)
Definition raw1 := mSeek bytewise 3 0 (NewDagModifier leaf_abc, full).
Definition raw2 := mWrite bytewise wb [x64] (snd raw1).
Definition raw3 := Sync bytewise (snd raw2).
Lemma grow_raw_refuted : exists root content s1 s2 s3,
  file_content root content /\ good_store full root /\
  mSeek bytewise 3 0 (NewDagModifier root, full) = (Ok 3, s1) /\ mWrite bytewise wb [x64] s1 = (Ok 1, s2) /\
  Sync bytewise s2 = (Err ENotProtobuf, s3) /\ mGetNode bytewise s3 = (Err EModifyKind, s3) /\ m_node (fst s3) = None.
Proof.
  exists leaf_abc, [x61; x62; x63], (snd raw1), (snd raw2), (snd raw3).
  split; [exists [[x61; x62; x63]]; split; [constructor|reflexivity]|]. split; [apply full_good|]. split; [vm_compute; reflexivity|].
  split; [vm_compute; reflexivity|]. split; [vm_compute; reflexivity|]. split; vm_compute; reflexivity.
Qed.

(** WriteAt after an unsynced WriteAt. *)
Lemma writeat_twice_refuted : exists h s n w,
  mod_run bytewise wb [MWriteAt [x58; x59] 1; MWriteAt [x5a] 2; MGetNode] (NewDagModifier abcde, full) = Some (h ++ [(MGetNode, BNode n, w)], s) /\
  tree_bytes n [x61; x58; x59; x5a; x65].
Proof. apply last_node_sound. vm_compute. reflexivity. Qed.
Lemma writeat_same_refuted : exists h s n w,
  mod_run bytewise wb [MWriteAt [x58; x59] 1; MWriteAt [x5a] 1; MGetNode] (NewDagModifier abcde, full) = Some (h ++ [(MGetNode, BNode n, w)], s) /\
  tree_bytes n [x61; x58; x59; x5a; x65].
Proof. apply last_node_sound. vm_compute. reflexivity. Qed.
Lemma writeat_sync_refuted : exists h s n w,
  mod_run bytewise wb [MWriteAt [x58; x59] 1; MSync; MWriteAt [x5a] 2; MGetNode] (NewDagModifier abcde, full) = Some (h ++ [(MGetNode, BNode n, w)], s) /\
  tree_bytes n [x61; x58; x59; x5a; x65].
Proof. apply last_node_sound. vm_compute. reflexivity. Qed.

Lemma write_after_read_refuted : exists h s n w,
  mod_run bytewise wb [MRead 2; MWrite [x58]; MGetNode] (NewDagModifier abcde, full) = Some (h ++ [(MGetNode, BNode n, w)], s) /\
  tree_bytes n [x58; x62; x63; x64; x65].
Proof. apply last_node_sound. vm_compute. reflexivity. Qed.

Lemma seek_end_refuted : exists s, mSeek bytewise 1 2 (NewDagModifier abcde, full) = (Ok 4, s).
Proof. exists (snd (mSeek bytewise 1 2 (NewDagModifier abcde, full))). vm_compute. reflexivity. Qed.
Lemma mod_run_first split wbsize op ops s o h s' : match mod_step split wbsize op s with Some (o', _) => o' | None => BDone end = o ->
  mod_run split wbsize (op :: ops) s = Some (h, s') -> exists w h', h = (op, o, w) :: h'.
Proof.
  intros E H. cbn in H. destruct (mod_step split wbsize op s) as [[o' s1]|]; [|discriminate]. subst o'. destruct (mod_run split wbsize ops s1) as [[h1 s2]|]; [|discriminate].
  injection H as <- _. eauto.
Qed.
Lemma seek_negative_refuted : exists h s n w w0,
  mod_run bytewise wb [MSeek (-1) 0; MWrite [x58]; MGetNode] (NewDagModifier abcde, full) = Some ((MSeek (-1) 0, BInt (-1), w0) :: h ++ [(MGetNode, BNode n, w)], s) /\
  tree_bytes n [x61; x62; x63; x64; x65; x58].
Proof.
  assert (X : exists h s n w, mod_run bytewise wb [MSeek (-1) 0; MWrite [x58]; MGetNode] (NewDagModifier abcde, full) = Some (h ++ [(MGetNode, BNode n, w)], s) /\ tree_bytes n [x61; x62; x63; x64; x65; x58]).
  { apply last_node_sound. vm_compute. reflexivity. }
  destruct X as (h & s & n & w & X1 & X2). pose proof X1 as Y. eapply (mod_run_first _ _ _ _ _ (BInt (-1))) in Y as (w0 & h' & Y); [|vm_compute; reflexivity].
  destruct h as [|x h]; [discriminate|]. injection Y as -> Y. exists h, s, n, w, w0. split; [exact X1|exact X2].
Qed.

(** The store refuses the first block it is given. *)
Definition fails_once : world := mkWorld (fun _ => true) [] 0 (fun i => negb (Nat.eqb i 0)) (fun _ => true).
Definition lost1 := mWrite bytewise wb [x58] (NewDagModifier abcde, fails_once).
Definition lost2 := Sync bytewise (snd lost1).
Definition lost3 := Sync bytewise (snd lost2).
Definition lost4 := mGetNode bytewise (snd lost3).
Lemma sync_failed_refuted : exists s1 s2 s3 s4 n,
  mWrite bytewise wb [x58] (NewDagModifier abcde, fails_once) = (Ok 1, s1) /\
  Sync bytewise s1 = (Err EAdd, s2) /\ Sync bytewise s2 = (Ok tt, s3) /\
  mGetNode bytewise s3 = (Ok n, s4) /\ tree_bytes n [x61; x62; x63; x64; x65].
Proof.
  exists (snd lost1), (snd lost2), (snd lost3), (snd lost4), (ok_node (fst lost4)).
  split; [vm_compute; reflexivity|]. split; [vm_compute; reflexivity|]. split; [vm_compute; reflexivity|]. split; [vm_compute; reflexivity|].
  apply tree_read_sound. vm_compute. reflexivity.
Qed.

Definition trunc1 := mRead bytewise 1 (NewDagModifier abcde, full).
Definition trunc2 := mTruncate bytewise 1 (snd trunc1).
Definition trunc3 := mRead bytewise 2 (snd trunc2).
Lemma read_truncated_refuted : exists s1 s2 s3,
  mRead bytewise 1 (NewDagModifier abcde, full) = (Ok ([x61], None), s1) /\ mTruncate bytewise 1 s1 = (Ok tt, s2) /\
  mRead bytewise 2 s2 = (Ok ([x62; x63], None), s3) /\ fst (mSize s3) = Ok 1.
Proof.
  exists (snd trunc1), (snd trunc2), (snd trunc3). split; [vm_compute; reflexivity|]. split; [vm_compute; reflexivity|]. split; vm_compute; reflexivity.
Qed.

Lemma truncate_negative_refuted : exists s, mTruncate bytewise (-1) (NewDagModifier abcde, full) = (Panic, s).
Proof. exists (snd (mTruncate bytewise (-1) (NewDagModifier abcde, full))). vm_compute. reflexivity. Qed.

(** ** Unsaved changes *)

Lemma sync_clean : forall split s u s', Sync split s = (Ok u, s') -> HasChanges (fst s') = false.
Proof.
  intros split [m w] u s' H. unfold HasChanges. unfold Sync in H. unfold bind at 1, get_mod at 1 in H. cbn [fst] in H.
  destruct (m_buf m) as [buf0|] eqn:E; [|unfold ret in H; injection H as _ <-; cbn [fst]; now rewrite E].
  repeat match type of H with (match ?x with _ => _ end) = _ => destruct x as [[?|?| |] ?]; try discriminate | bind ?x _ _ = _ => unfold bind at 1 in H end.
  unfold upd_mod in H. injection H as _ <-. reflexivity.
Qed.
Lemma getnode_clean : forall split s n s', mGetNode split s = (Ok n, s') -> HasChanges (fst s') = false.
Proof.
  intros split s n s' H. unfold mGetNode, bind in H. destruct (Sync split s) as [[u|?| |] s1] eqn:E; try discriminate.
  destruct (m_node (fst s1)); [|discriminate]. injection H as _ <-. eapply sync_clean, E.
Qed.
Lemma clean_sync_nothing : forall split m w, HasChanges m = false -> Sync split (m, w) = (Ok tt, (m, w)).
Proof. intros split m w H. apply Sync_none. unfold HasChanges in H. now destruct (m_buf m). Qed.
Lemma write_dirty : forall split wbsize b m w, zlen (match m_buf m with Some x => x | None => [] end) + zlen b <= wbsize ->
  exists m', mWrite split wbsize b (m, w) = (Ok (zlen b), (m', w)) /\ HasChanges m' = true /\ m_node m' = m_node m.
Proof.
  intros split wbsize b m w H. unfold mWrite, bind, upd_mod, get_mod. cbn [fst snd m_set_off m_set_buf m_set_read m_buf]. rewrite zlen_app.
  replace (wbsize <? _) with false by lia. unfold ret. eexists. split; [reflexivity|]. split; reflexivity.
Qed.

(** Deciding which histories are allowed. *)
Definition allowedb (s : fstate) (op : mop) : bool :=
  match op with
  | MWrite b => negb (f_moved s) && (f_pos s + zlen b <? 9223372036854775808)
  | MWriteAt b off => f_clean s && (negb (off =? f_pos s) || negb (f_moved s)) && (0 <=? off) && (off + zlen b <? 9223372036854775808) && (f_pos s + zlen b <? 9223372036854775808)
  | MSeek off wh => ((wh =? 0) || (wh =? 1) || (wh =? 2) && (off =? 0) && match f_reader s with NoReader | Current => true | _ => false end) && (-9223372036854775808 <=? off) && (off <? 9223372036854775808) &&
      (0 <=? m_target s off wh) && (m_target s off wh <? 9223372036854775808)
  | MTruncate n => (0 <=? n) && (n <? 9223372036854775808)
  | MRead _ => match f_reader s with Stale => false | _ => true end
  | _ => true
  end.
Fixpoint all_allowedb (s : fstate) (ops : list mop) : bool :=
  match ops with [] => true | op :: r => allowedb s op && all_allowedb (m_next s op) r end.
Lemma all_allowedb_sound ops : forall s, all_allowedb s ops = true -> all_allowed s ops.
Proof.
  induction ops as [|op ops IH]; intros s H; cbn in *; [exact I|]. apply andb_true_iff in H as [H H2]. split; [|now apply IH]. clear IH H2.
  destruct op; cbn [allowedb m_allowed] in *; auto; destruct (f_moved s), (f_clean s), (f_reader s); cbn in *; try discriminate; repeat split; try lia; auto; try (left; lia); try discriminate;
    try (assert (X : whence = 0 \/ whence = 1 \/ whence = 2 /\ off = 0) by lia; destruct X as [X|[X|[X1 X2]]]; [auto|auto|right; right; repeat split; auto; discriminate]);
    (assert (X : whence = 0 \/ whence = 1) by lia; destruct X; auto).
Qed.
