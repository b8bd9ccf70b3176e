(** The modifier follows the exact machine of SpecExact.v. *)
From Verif Require Import Base Pb PbProofs FSNode FSNodeProofs Dag DagProofs Builder Trickle Importer Reader Modifier
  SpecFile SpecAppend SpecReader SpecModifier SpecExact BuilderProofs TrickleProofs ImportProofs AppendProofs AppendRun ReaderProofs ReaderRun ReaderProofs2
  GrowProofs ModifierProofs TruncateProofs ModifierRun.

(** A call with its result, errors and panics included. *)
Definition mod_call (split : bytes -> list bytes) (wbsize : Z) (op : mop) (s : mst) : res mobs * mst :=
  match op with
  | MWrite b => let (r, s') := mWrite split wbsize b s in (rmap BInt r, s')
  | MWriteAt b off => let (r, s') := WriteAt split wbsize b off s in (rmap BInt r, s')
  | MSeek off wh => let (r, s') := mSeek split off wh s in (rmap BInt r, s')
  | MTruncate n => let (r, s') := mTruncate split n s in (rmap (fun _ => BDone) r, s')
  | MRead k => let (r, s') := mRead split k s in (rmap (fun x => BData (fst x) (snd x)) r, s')
  | MSize => let (r, s') := mSize s in (rmap BInt r, s')
  | MSync => let (r, s') := Sync split s in (rmap (fun _ => BDone) r, s')
  | MGetNode => let (r, s') := mGetNode split s in (rmap BNode r, s')
  end.
Fixpoint mod_calls (split : bytes -> list bytes) (wbsize : Z) (ops : list mop) (s : mst) : list (mop * res mobs * world) * mst :=
  match ops with
  | [] => ([], s)
  | op :: r =>
      let (o, s1) := mod_call split wbsize op s in
      let (h, s2) := mod_calls split wbsize r s1 in
      ((op, o, snd s1) :: h, s2)
  end.

Lemma calls_app split wbsize a : forall b s, mod_calls split wbsize (a ++ b) s =
  (fst (mod_calls split wbsize a s) ++ fst (mod_calls split wbsize b (snd (mod_calls split wbsize a s))),
   snd (mod_calls split wbsize b (snd (mod_calls split wbsize a s)))).
Proof.
  induction a as [|op a IH]; intros b s; cbn [mod_calls app fst snd]; [now destruct (mod_calls split wbsize b s)|].
  destruct (mod_call split wbsize op s) as [o s1]. rewrite IH. destruct (mod_calls split wbsize a s1) as [h s2]. cbn [fst snd app]. reflexivity.
Qed.
Lemma after_app limit s a b : x_after limit s (a ++ b) = x_after limit (x_after limit s a) b.
Proof. apply fold_left_app. Qed.
Lemma all_ok_app limit a : forall s b, all_ok limit s (a ++ b) <-> all_ok limit s a /\ all_ok limit (x_after limit s a) b.
Proof.
  induction a as [|op a IH]; intros s b; cbn [all_ok app x_after fold_left]; [tauto|]. fold (x_after limit (x_next limit s op) a). rewrite IH. tauto.
Qed.
Lemma exactly_app limit a : forall s b, exactly limit s (a ++ b) <-> exactly limit s a /\ exactly limit (x_after limit s (map (fun x => fst (fst x)) a)) b.
Proof.
  induction a as [|[[op o] w] a IH]; intros s b; cbn [exactly app map fst x_after fold_left]; [tauto|].
  fold (x_after limit (x_next limit s op) (map (fun x => fst (fst x)) a)). rewrite IH. tauto.
Qed.

Lemma x_flush_buf s : x_buf (x_flush s) = None.
Proof. unfold x_flush. destruct (x_buf s) eqn:E; [reflexivity|exact E]. Qed.
Lemma x_flush_file s : x_file (x_flush s) = x_content s.
Proof. unfold x_flush, x_content. destruct (x_buf s) eqn:E; reflexivity. Qed.
Lemma x_flush_pos s : x_pos (x_flush s) = x_pos s.
Proof. unfold x_flush. destruct (x_buf s) eqn:E; reflexivity. Qed.
Lemma x_flush_start s : x_start (x_flush s) = x_end s.
Proof. unfold x_flush, x_end, x_pending. destruct (x_buf s) eqn:E; cbn; rewrite ?zlen_nil; lia. Qed.

Lemma x_extend_keep n s : x_buf (x_extend n s) = x_buf s /\ x_pos (x_extend n s) = x_pos s /\ x_start (x_extend n s) = x_start s.
Proof. unfold x_extend, x_resize. destruct (_ <? _); auto. Qed.
Lemma x_extend_file n s : x_file (x_extend n s) = pad (x_file s) n.
Proof. unfold x_extend, x_resize. destruct (_ <? _) eqn:E; [reflexivity|]. now rewrite pad_small by lia. Qed.
Lemma x_extend_read n s : (forall y, x_read s = Some y -> exists y', x_read (x_extend n s) = Some y' /\ xr_pos y' = xr_pos y /\ xr_size y' = xr_size y) /\
  (x_read s = None -> x_read (x_extend n s) = None).
Proof.
  unfold x_extend, x_resize. destruct (_ <? _); cbn [x_read]; split; intros; rewrite ?H; cbn [option_map]; eauto.
Qed.

Section Exact.
  Variable split : bytes -> list bytes.
  Variable wbsize : Z.
  Hypothesis split_ok : forall b, concat (split b) = b /\ source_ok BlockSizeLimit (split b).

  Record xinv (s : xstate) (m : modifier) (w : world) : Prop := {
    xi_node : exists n, m_node m = Some n /\ file_content n (x_file s) /\ growable K n /\ available w n;
    xi_len : zlen (x_file s) < 9223372036854775808;
    xi_add : can_add w;
    xi_serves : serves w;
    xi_buf : m_buf m = x_buf s;
    xi_mstart : m_start m = x_start s;
    xi_moff : m_off m = x_pos s;
    xi_pos : 0 <= x_pos s < 9223372036854775808;
    xi_start : 0 <= x_start s;
    xi_end : x_end s < 9223372036854775808;
    xi_read : match m_read m, x_read s with
      | None, None => True
      | Some r, Some y => x_buf s = None /\ m_node m = Some (r_root r) /\ r_off r = xr_pos y /\ r_size r = xr_size y /\
          0 <= xr_pos y < 9223372036854775808 /\ 0 <= xr_size y < 9223372036854775808 /\
          (xr_stale y = false -> reader_at (x_file s) (xr_pos y) r)
      | _, _ => False
      end
  }.

  Lemma xi_clen s m w : xinv s m w -> zlen (x_content s) < 9223372036854775808.
  Proof.
    intros H. unfold x_content. pose proof (xi_len _ _ _ H). pose proof (xi_end _ _ _ H) as He. unfold x_end, x_pending in He. destruct (x_buf s); [|assumption].
    rewrite put_length by apply H. lia.
  Qed.
  Lemma xi_good s m w n : xinv s m w -> available w n -> good_store w n.
  Proof. intros H A. split; [apply H|]. split; [apply H|]. now apply available_below. Qed.

  Lemma xinv_Sync s m w : xinv s m w -> exists m' w', Sync split (m, w) = (Ok tt, (m', w')) /\ xinv (x_flush s) m' w'.
  Proof.
    intros H. unfold x_flush. destruct (x_buf s) as [buf|] eqn:Eb.
    - destruct (xi_node _ _ _ H) as (n & Hn & Hc & Hg & Ha). pose proof (xi_good _ _ _ _ H Ha) as Gs. pose proof (xi_end _ _ _ H) as He. pose proof (xi_start _ _ _ H) as Hs0.
      unfold x_end, x_pending in He. rewrite Eb in He. pose proof (zlen_nonneg buf) as Hb0. pose proof (xi_len _ _ _ H) as Hl.
      assert (Hbm : m_buf m = Some buf) by (rewrite (xi_buf _ _ _ H); exact Eb). assert (Hst : m_start m = x_start s) by apply H.
      pose proof (Sync_spec split split_ok m w n (x_file s) buf Hn Hc Hbm Hl ltac:(lia) ltac:(lia) (fun _ => Hg)) as S.
      destruct (Sync split (m, w)) as [[[]|e| |] [m' w']]; try contradiction. exists m', w'. split; [reflexivity|].
      destruct S as (n' & -> & S1 & S2 & S3 & S4 & S5 & _). rewrite Hst in *. pose proof (derived_good _ _ _ _ S2 Gs) as G'.
      constructor; cbn [x_file x_buf x_start x_pos x_read m_node m_off m_start m_buf m_read].
      + exists n'. split; [reflexivity|]. split; [exact S1|]. split; [auto|]. now apply good_available.
      + rewrite put_length by assumption. lia.
      + apply G'.
      + apply G'.
      + reflexivity.
      + reflexivity.
      + apply H.
      + apply H.
      + lia.
      + unfold x_end, x_pending. cbn [x_buf x_start]. rewrite zlen_nil. lia.
      + exact I.
    - rewrite Sync_none by (rewrite (xi_buf _ _ _ H); exact Eb). exists m, w. auto.
  Qed.

  Lemma xinv_Size s m w : xinv s m w -> mSize (m, w) = (Ok (zlen (x_content s)), (m, w)).
  Proof.
    intros H. destruct (xi_node _ _ _ H) as (n & Hn & (cs & Hcs & Ec) & _ & _). pose proof (xi_end _ _ _ H) as He. pose proof (xi_start _ _ _ H) as Hs. pose proof (xi_len _ _ _ H) as Hl.
    unfold x_end, x_pending in He. pose proof (zlen_nonneg (x_file s)) as H0.
    unfold mSize, bind, cur_node, lift, get_mod. cbn [fst snd]. rewrite Hn, (fileSize_dag n cs Hcs) by (rewrite <- Ec; exact Hl). rewrite <- Ec. rewrite (i64_small (zlen (x_file s))) by lia. cbn [fst snd].
    rewrite (xi_buf _ _ _ H), (xi_mstart _ _ _ H). unfold x_content. destruct (x_buf s) as [buf|]; unfold ret; [|reflexivity].
    pose proof (zlen_nonneg buf) as Hb0. cbv zeta. rewrite (i64_small (zlen buf)), (i64_small (x_start s)), i64_small by lia. rewrite put_length by assumption.
    destruct (_ <? _) eqn:E; do 2 f_equal; lia.
  Qed.

  Lemma xinv_Write s m w b : xinv s m w -> x_end s + zlen b < 9223372036854775808 -> x_pos s + zlen b < 9223372036854775808 ->
    exists m' w', mWrite split wbsize b (m, w) = (Ok (zlen b), (m', w')) /\ xinv (x_write wbsize b s) m' w'.
  Proof.
    intros H He Hp. pose proof (zlen_nonneg b) as Hb0. pose proof (xi_pos _ _ _ H) as Hpos. pose proof (xi_start _ _ _ H) as Hs.
    unfold mWrite, x_write. unfold bind at 1, upd_mod at 1. cbn [fst snd].
    set (m1 := m_set_off _ _). unfold bind at 1, get_mod at 1. cbn [fst]. set (s1 := mkX _ _ _ _ _).
    assert (Eb : m_buf m1 = Some (x_pending s ++ b)) by (cbn; now rewrite (xi_buf _ _ _ H)).
    assert (H1 : xinv s1 m1 w).
    { constructor; cbn [s1 x_file x_buf x_start x_pos x_read].
      - apply H.
      - apply H.
      - apply H.
      - apply H.
      - exact Eb.
      - apply H.
      - change (m_off m1) with (u64 (m_off m + zlen b)). rewrite (xi_moff _ _ _ H). apply u64_small. unfold two64. lia.
      - lia.
      - exact Hs.
      - change (x_start s + zlen (x_pending s ++ b) < 9223372036854775808). rewrite zlen_app. unfold x_end in He. lia.
      - exact I. }
    rewrite Eb. unfold bind at 1. destruct (wbsize <? zlen (x_pending s ++ b)).
    - destruct (xinv_Sync s1 m1 w H1) as (m' & w' & -> & H'). exists m', w'. auto.
    - cbn [ret]. exists m1, w. auto.
  Qed.

  (** Another file in the same state. *)
  Lemma xinv_change s m w n n' c w' : xinv s m w -> m_node m = Some n -> file_content n' c -> growable K n' -> zlen c < 9223372036854775808 -> good_store w' n' -> stored w' n' = true ->
    xinv (x_resize c s) (m_change_node n n' m) w'.
  Proof.
    intros H Hn Hc Hg Hl G St. destruct H as [A1 A2 A3 A4 A5 A6 A7 A8 A9 A10 A11].
    constructor; cbn [x_resize x_file x_buf x_start x_pos x_read]; auto.
    - exists n'. split; [reflexivity|]. split; [exact Hc|]. split; [exact Hg|]. now apply good_available.
    - apply G.
    - apply G.
    - cbn [m_change_node m_set_node m_set_read m_read m_node]. destruct (m_read m) as [r|], (x_read s) as [y|]; try contradiction; cbn [option_map]; [|exact I].
      destruct A11 as (R1 & R2 & R3 & R4 & R5 & R6 & R7). rewrite Hn in R2. injection R2 as ->. rewrite node_eqb_refl.
      split; [exact R1|]. split; [reflexivity|]. split; [exact R3|]. split; [exact R4|]. split; [exact R5|]. split; [exact R6|]. discriminate.
  Qed.

  Lemma xinv_expand s m w n : xinv s m w -> zlen (x_file s) < n < 9223372036854775808 ->
    exists m' w', expandSparse (n - zlen (x_file s)) (m, w) = (Ok tt, (m', w')) /\ xinv (x_resize (pad (x_file s) n) s) m' w'.
  Proof.
    intros H Hn. destruct (xi_node _ _ _ H) as (x & Hx & Hf & Hg & Ha). pose proof (zlen_nonneg (x_file s)) as H0.
    pose proof (expand_spec m w x (x_file s) (n - zlen (x_file s)) Hx Hf Hg ltac:(lia)) as E. pose proof (xi_good _ _ _ _ H Ha) as Gs.
    destruct (expandSparse _ _) as [[[]|e| |] [m' w']]; try contradiction. destruct E as (n' & -> & E1 & E2 & E3 & E4 & E5 & E6).
    change (x_file s ++ zeros (n - zlen (x_file s))) with (pad (x_file s) n) in E1. exists (m_change_node x n' m), w'. split; [reflexivity|].
    apply (xinv_change _ _ _ x n' _ w' H Hx E1 E2); [rewrite pad_len; lia|exact (derived_good _ _ _ _ E3 Gs)|assumption].
  Qed.

  (** [x_extend] as the callers do it: [d] bytes beyond the end. *)
  Lemma xinv_extend s m w (d : Z) : xinv s m w -> zlen (x_file s) + d < 9223372036854775808 -> d < 9223372036854775808 ->
    exists m' w', ((if 0 <? d then expandSparse (i64 d) else ret tt) : M mst unit) (m, w) = (Ok tt, (m', w')) /\ xinv (x_extend (zlen (x_file s) + d) s) m' w'.
  Proof.
    intros H Hd Hd'. unfold x_extend. destruct (0 <? d) eqn:E.
    - replace (zlen (x_file s) <? zlen (x_file s) + d) with true by lia. rewrite i64_small by lia.
      destruct (xinv_expand s m w (zlen (x_file s) + d) H ltac:(lia)) as (m' & w' & X & H'). replace (zlen (x_file s) + d - zlen (x_file s)) with d in X by lia. exists m', w'. auto.
    - replace (zlen (x_file s) <? zlen (x_file s) + d) with false by lia. exists m, w. auto.
  Qed.

  Definition call_ok (s : xstate) (op : mop) (st : mst) : Prop :=
    exists o m' w', mod_call split wbsize op st = (o, (m', w')) /\ x_answer w' s op o /\ xinv (x_next wbsize s op) m' w'.

  Lemma call_Write s m w b : xinv s m w -> x_ok s (MWrite b) -> call_ok s (MWrite b) (m, w).
  Proof.
    intros H [He Hp]. destruct (xinv_Write s m w b H He Hp) as (m' & w' & E & H'). exists (Ok (BInt (zlen b))), m', w'. cbn [mod_call]. rewrite E.
    split; [reflexivity|]. split; [reflexivity|exact H'].
  Qed.
  Lemma call_Size s m w : xinv s m w -> call_ok s MSize (m, w).
  Proof. intros H. exists (Ok (BInt (zlen (x_content s)))), m, w. cbn [mod_call]. rewrite (xinv_Size _ _ _ H). split; [reflexivity|]. split; [reflexivity|exact H]. Qed.
  Lemma call_Sync s m w : xinv s m w -> call_ok s MSync (m, w).
  Proof.
    intros H. destruct (xinv_Sync _ _ _ H) as (m' & w' & E & H'). exists (Ok BDone), m', w'. cbn [mod_call]. rewrite E. split; [reflexivity|]. split; [reflexivity|exact H'].
  Qed.
  Lemma call_GetNode s m w : xinv s m w -> call_ok s MGetNode (m, w).
  Proof.
    intros H. destruct (xinv_Sync _ _ _ H) as (m' & w' & E & H'). destruct (xi_node _ _ _ H') as (n & Hn & Hf & _ & Ha).
    exists (Ok (BNode n)), m', w'. cbn [mod_call]. unfold mGetNode, bind. rewrite E. cbn [fst]. rewrite Hn. split; [reflexivity|].
    split; [exists n; rewrite x_flush_file in Hf; auto|exact H'].
  Qed.

  Lemma xi_flush_len s m w : xinv s m w -> zlen (x_content s) < 9223372036854775808 /\ 0 <= zlen (x_content s).
  Proof. intros H. split; [eapply xi_clen, H|apply zlen_nonneg]. Qed.

  Lemma call_Truncate s m w n : xinv s m w -> x_ok s (MTruncate n) -> call_ok s (MTruncate n) (m, w).
  Proof.
    intros H Hn. cbn [x_ok] in Hn. destruct (xinv_Sync _ _ _ H) as (m1 & w1 & E & H1).
    unfold call_ok. cbn [mod_call x_answer x_next]. unfold mTruncate, bind. rewrite E. rewrite (xinv_Size _ _ _ H1).
    pose proof (x_flush_buf s) as Fb. set (t := x_flush s) in *. assert (Ex : x_content t = x_file t) by (unfold x_content; now rewrite Fb). rewrite Ex.
    pose proof (xi_len _ _ _ H1) as Hl. pose proof (zlen_nonneg (x_file t)) as H0.
    destruct (n =? zlen (x_file t)) eqn:E1.
    - cbn [ret]. exists (Ok BDone), m1, w1. auto.
    - destruct (zlen (x_file t) <? n) eqn:E2.
      + rewrite i64_small by lia. destruct (xinv_expand t m1 w1 n H1 ltac:(lia)) as (m2 & w2 & X1 & X2). rewrite X1.
        exists (Ok BDone), m2, w2. split; [reflexivity|]. split; [reflexivity|]. unfold resize. rewrite ztake_all by (rewrite pad_len; lia). exact X2.
      + destruct (xi_node _ _ _ H1) as (x & Hx & Hf & Hg & Ha). pose proof (xi_good _ _ _ _ H1 Ha) as Gs.
        destruct Hf as (cs & Hcs & Ec). unfold truncate_cur. cbn [fst snd]. rewrite Hx. rewrite u64_small by (unfold two64; lia).
        pose proof (dagTruncate_spec (weight x) x cs n w1 (height_weight x) Hcs ltac:(rewrite <- Ec; lia) ltac:(rewrite <- Ec; lia)) as T.
        destruct (dagTruncate (weight x) x n w1) as [[nn|e| |] w2]; destruct T as [Tg T]; cbn [fst snd] in *; try contradiction.
        destruct (tr_dag _ _ _ _ _ _ T) as (cs' & T1 & T2). destruct (tr_added _ _ _ _ _ _ T) as (a & T3 & T4).
        match goal with |- context [mod_add nn (?mm, w2)] => pose proof (mod_add_spec mm w2 nn) as B; destruct (mod_add nn (mm, w2)) as [[u6|e| |] [m6 w6]] end; try contradiction.
        2:{ destruct B as (_ & _ & B). exfalso. apply B. eapply wgrow_can_add; [exact Tg|apply Gs]. }
        destruct B as (Em & B1 & B2 & B3). assert (Es : seal nn = nn) by (eapply file_dag_seal, T1). rewrite Es in *.
        exists (Ok BDone), (m_change_node x nn m1), w6. split.
        { unfold upd_mod. cbn [fst snd]. rewrite Em. destruct x; [exfalso; inversion Hg as [? ? (? & ? & ? & ? & Hi & _)]; discriminate|reflexivity]. }
        split; [reflexivity|].
        assert (D : derived w1 x w6 nn) by (eapply derived_grow; [split; [exact Tg|exists a; auto]|exact B1]).
        pose proof (derived_good _ _ _ _ D Gs) as G'.
        assert (Ec' : concat cs' = resize (x_file t) n) by (rewrite T2, <- Ec; unfold resize; now rewrite pad_small by lia).
        apply (xinv_change _ _ _ x nn _ w6 H1 Hx); [exists cs'; auto|apply (tr_loose _ _ _ _ _ _ T), Hg| |exact G'|exact B3].
        rewrite <- Ec', T2, <- Ec, zlen_ztake by lia. lia.
  Qed.

  (** The size is ruinous: slices beyond the data, or a nil child is added. *)
  Lemma trunc_links_far rec ls : forall css i cur size f w, Forall2 file_dag (map lto ls) css -> (forall l, In l ls -> dserv_get w (lto l) = Ok (lto l)) ->
    0 <= cur -> cur + zlen (concat (concat css)) < 9223372036854775808 <= size ->
    exists f', trunc_links rec ls i cur size f w = (Ok (None, f'), w).
  Proof using. clear split_ok split wbsize.
    induction ls as [|l ls IH]; intros css i cur size f w HF Hg Hc Hs; cbn [trunc_links]; [eauto|].
    inversion HF as [|? cs ? css' Hcs HF']; subst. cbn [concat] in Hs. rewrite concat_app, zlen_app in Hs.
    pose proof (zlen_nonneg (concat cs)) as L1. pose proof (zlen_nonneg (concat (concat css'))) as L2.
    rewrite (Hg l (or_introl eq_refl)). rewrite (fileSize_dag _ cs Hcs) by lia. rewrite u64_small by (unfold two64; lia). replace (size <? cur + zlen (concat cs)) with false by lia.
    apply (IH css'); [exact HF'|intros l0 Hl0; apply Hg; now right|lia|lia].
  Qed.
  Lemma dagTruncate_far n cs size w : file_dag n cs -> available w n -> zlen (concat cs) < 9223372036854775808 <= size ->
    dagTruncate (weight n) n size w = (Panic, w).
  Proof using. clear split_ok split wbsize.
    intros Hd Ha Hs. destruct Hd as [p d|p b fs Hf Ht Hb Hfs|p b fs ls css Hne Hnm Hf Ht Hd HF Hb Hfs].
    - cbn [concat] in Hs. rewrite app_nil_r in Hs. cbn [weight dagTruncate node_links]. now replace (zlen d <? size) with true by lia.
    - cbn [concat] in Hs. rewrite app_nil_r in Hs. cbn [weight dagTruncate node_links]. rewrite Hf. now replace (zlen (getData fs) <? size) with true by lia.
    - destruct (trunc_links_far (dagTruncate (pred (weight (NProto p b ls)))) ls css 0 0 size (RemoveAllBlockSizes fs) w HF) as (f' & E).
      + intros l Hl. apply Ha. eapply reach_link; [exact Hl|constructor].
      + lia.
      + lia.
      + destruct ls as [|l0 ls0]; [congruence|]. assert (Ew : exists k, weight (NProto p b (l0 :: ls0)) = S k) by (rewrite weight_eq; eauto). destruct Ew as (k & Ew).
        rewrite Ew in *. cbn [pred] in E. cbn [dagTruncate node_links]. rewrite Hf, E. reflexivity.
  Qed.

  Lemma call_Truncate_negative s m w n : xinv s m w -> -9223372036854775808 <= n < 0 -> fst (mod_call split wbsize (MTruncate n) (m, w)) = Panic.
  Proof.
    intros H Hn. destruct (xinv_Sync _ _ _ H) as (m1 & w1 & E & H1). cbn [mod_call]. unfold mTruncate, bind. rewrite E. rewrite (xinv_Size _ _ _ H1).
    pose proof (zlen_nonneg (x_content (x_flush s))) as H0. replace (n =? _) with false by lia. replace (_ <? n) with false by lia.
    destruct (xi_node _ _ _ H1) as (x & Hx & (cs & Hcs & Ec) & Hg & Ha). pose proof (xi_len _ _ _ H1) as Hl. unfold truncate_cur. cbn [fst snd]. rewrite Hx.
    assert (Eu : u64 n = n + two64) by (unfold u64; symmetry; apply (Z.mod_unique_pos _ _ (-1)); unfold two64; lia).
    rewrite (dagTruncate_far x cs (u64 n) w1 Hcs Ha) by (rewrite <- Ec, Eu; unfold two64; lia). reflexivity.
  Qed.

  Lemma target_u64 s off wh : whence_ok wh = true -> in_range (x_target s off wh) = true -> -9223372036854775808 <= off < 9223372036854775808 ->
    0 <= x_pos s < 9223372036854775808 -> zlen (x_content s) < 9223372036854775808 -> forall st,
    ((if wh =? 1 then ret (u64 (x_pos s + u64 off)) else if wh =? 0 then ret (u64 off)
        else if wh =? 2 then ret (u64 (u64 (zlen (x_content s)) - u64 off)) else throw EInvalidWhence) : M mst Z) st = (Ok (x_target s off wh), st).
  Proof using. clear split_ok split wbsize.
    intros Hw Hr Ho Hp Hl st. unfold in_range, whence_ok, x_target in *. pose proof (zlen_nonneg (x_content s)) as H0.
    destruct (wh =? 1) eqn:E1; [replace (wh =? 0) with false in * by lia|].
    - unfold ret. unfold u64. rewrite Z.add_mod_idemp_r by (unfold two64; lia). now rewrite Z.mod_small by (unfold two64; lia).
    - destruct (wh =? 0) eqn:E0; [unfold ret; now rewrite u64_small by (unfold two64; lia)|]. destruct (wh =? 2) eqn:E2; [|discriminate].
      unfold ret, u64. rewrite <- Zminus_mod. now rewrite Z.mod_small by (unfold two64; lia).
  Qed.

  (** A Seek of the reader that goes out of range fails and changes nothing. *)
  Lemma seek_bad w off wh r y : r_off r = xr_pos y -> r_size r = xr_size y -> 0 <= xr_pos y < 9223372036854775808 -> 0 <= xr_size y < 9223372036854775808 ->
    -9223372036854775808 <= off < 9223372036854775808 -> whence_ok wh = true -> in_range (xr_target y off wh) = false ->
    exists i, Seek w off wh r = (i, Err EInvalidOffset, r).
  Proof using. clear split_ok split wbsize.
    intros E1 E2 H1 H2 Ho Hw Hr. unfold Seek, whence_ok, xr_target, in_range in *.
    assert (Wrap : forall z, -9223372036854775808 <= z < 0 \/ 9223372036854775808 <= z < 2 * 9223372036854775808 -> exists i, seek_start w (i64 z) r = (i, Err EInvalidOffset, r)).
    { intros z Hz. unfold seek_start. assert (i64 z < 0). { unfold i64, two64, two63 in *. destruct Hz as [Hz|Hz]; [rewrite Z.mod_small by lia; lia|]. replace (z + 9223372036854775808) with ((z - 9223372036854775808) + 1 * 18446744073709551616) by lia. rewrite Z.mod_add, Z.mod_small by lia. lia. }
      replace (i64 z <? 0) with true by lia. eauto. }
    destruct (wh =? 0) eqn:E0.
    - unfold seek_start. replace (off <? 0) with true by lia. eauto.
    - destruct (wh =? 1) eqn:E3.
      + destruct (off =? 0) eqn:E4; [lia|]. rewrite E1. apply Wrap. lia.
      + destruct (wh =? 2) eqn:E5; [|discriminate]. unfold Size. rewrite E2, (i64_small (xr_size y)) by lia. apply Wrap. lia.
  Qed.

  (** The reader after a Seek. *)
  Lemma call_Seek s m w off wh : xinv s m w -> x_ok s (MSeek off wh) -> call_ok s (MSeek off wh) (m, w).
  Proof.
    intros H (Hoff & Hrange). destruct (xinv_Sync _ _ _ H) as (m1 & w1 & E & H1).
    unfold call_ok. cbn [mod_call x_answer x_next]. unfold mSeek, bind at 1. rewrite E. unfold bind at 1. rewrite (xinv_Size _ _ _ H1).
    pose proof (x_flush_buf s) as Fb. pose proof (x_flush_file s) as Ff. pose proof (x_flush_pos s) as Fp.
    assert (Ex : x_content (x_flush s) = x_content s) by (rewrite <- Ff; unfold x_content; now rewrite Fb). rewrite Ex.
    unfold bind at 1, get_mod at 1. cbn [fst]. rewrite (xi_moff _ _ _ H1), Fp.
    unfold x_seek, x_seek_answer. destruct (whence_ok wh) eqn:Ew.
    2:{ unfold whence_ok in Ew. destruct (wh =? 0) eqn:E0, (wh =? 1) eqn:E1, (wh =? 2) eqn:E2; try discriminate. cbn [bind throw].
        eexists _, m1, w1. split; [reflexivity|]. split; [reflexivity|exact H1]. }
    specialize (Hrange eq_refl). set (t := x_target s off wh) in *.
    destruct (xi_flush_len _ _ _ H) as [Hl H0]. pose proof (xi_pos _ _ _ H) as Hp.
    unfold bind at 1. rewrite (target_u64 s off wh Ew Hrange Hoff Hp Hl). fold t. assert (Ht : 0 <= t < 9223372036854775808) by (unfold in_range in Hrange; lia).
    rewrite (i64_small t) by lia.
    assert (X : exists m2 w2, ((if zlen (x_content s) <? t then expandSparse (i64 (t - zlen (x_content s))) else ret tt) : M mst unit) (m1, w1) = (Ok tt, (m2, w2)) /\
      xinv (x_extend t (x_flush s)) m2 w2).
    { destruct (xinv_extend (x_flush s) m1 w1 (t - zlen (x_content s)) H1) as (m2 & w2 & X1 & X2); [rewrite Ff; lia|lia|].
      exists m2, w2. rewrite Ff in X2. replace (zlen (x_content s) + (t - zlen (x_content s))) with t in X2 by lia. split; [|exact X2].
      rewrite <- X1. replace (0 <? t - zlen (x_content s)) with (zlen (x_content s) <? t) by lia. reflexivity. }
    destruct X as (m2 & w2 & X1 & H2). unfold bind at 1. rewrite X1. unfold bind at 1, upd_mod at 1. cbn [fst snd]. unfold bind at 1, get_mod at 1. cbn [fst m_set_start m_set_off m_read].
    destruct (x_extend_keep t (x_flush s)) as (K1 & K2 & K3). rewrite Fb in K1. pose proof (x_extend_file t (x_flush s)) as K4. rewrite Ff in K4.
    destruct (x_extend_read t (x_flush s)) as [K5 K6].
    set (s2 := x_extend t (x_flush s)) in *.
    assert (G : forall r2 y2, (match r2, y2 with
      | None, None => True
      | Some r, Some y => m_node m2 = Some (r_root r) /\ r_off r = xr_pos y /\ r_size r = xr_size y /\
          0 <= xr_pos y < 9223372036854775808 /\ 0 <= xr_size y < 9223372036854775808 /\
          (xr_stale y = false -> reader_at (x_file s2) (xr_pos y) r)
      | _, _ => False end) -> xinv (mkX (x_file s2) None t t y2) (m_set_read r2 (m_set_start t (m_set_off t m2))) w2).
    { intros r2 y2 Hr. destruct H2 as [A1 A2 A3 A4 A5 A6 A7 A8 A9 A10 A11].
      constructor; cbn [x_file x_buf x_start x_pos x_read m_set_start m_set_off m_set_read m_node m_buf m_off m_start m_read] in *; auto; try lia.
      - now rewrite A5.
      - unfold x_end, x_pending. cbn. rewrite zlen_nil. lia.
      - destruct r2, y2; try contradiction; auto. }
    pose proof (xi_read _ _ _ H2) as Hr2. destruct (m_read m2) as [r|] eqn:Er.
    - destruct (x_read s2) as [y|] eqn:Ey; [|contradiction]. destruct Hr2 as (_ & R2 & R3 & R4 & R5 & R6 & R7).
      destruct (xi_node _ _ _ H2) as (x & Hx & Hf & Hg & Ha). rewrite Hx in R2. injection R2 as ->.
      assert (Ey0 : exists y0, x_read (x_flush s) = Some y0 /\ xr_target y0 off wh = xr_target y off wh).
      { destruct (x_read (x_flush s)) as [y0|] eqn:Ez; [|discriminate (K6 eq_refl)]. destruct (K5 y0 eq_refl) as (y' & Y1 & Y2 & Y3). assert (y' = y) by congruence. subst y'.
        exists y0. split; [reflexivity|]. unfold xr_target. now rewrite Y2, Y3. }
      destruct Ey0 as (y0 & -> & ->). cbn [option_map]. unfold xr_seek. set (t' := xr_target y off wh).
      unfold bind at 1. unfold bind at 1. unfold read_seek at 1. cbn [fst snd m_set_start m_set_off m_read]. rewrite Er.
      destruct (in_range t') eqn:Et.
      + assert (Ht' : 0 <= t' < 9223372036854775808) by (unfold in_range in Et; lia).
        assert (Htgt : wh = 0 /\ t' = off \/ wh = 1 /\ t' = r_off r + off \/ wh = 2 /\ t' = r_size r + off).
        { unfold t', xr_target. rewrite R3, R4. unfold whence_ok in Ew. destruct (wh =? 0) eqn:E0, (wh =? 1) eqn:E1, (wh =? 2) eqn:E2; try discriminate; lia. }
        destruct (seek_any w2 (x_file s2) off wh r t' Hf (xi_len _ _ _ H2) (available_below _ _ Ha) Htgt ltac:(rewrite R4; lia) Ht') as (r' & S1 & S2 & S3 & S4 & S5).
        rewrite S1. cbn [rmap ret]. eexists _, _, _. split; [reflexivity|]. split; [reflexivity|]. apply (G (Some r')). rewrite S2, S3, S4, Hx. cbn [xr_pos xr_size xr_stale].
        split; [reflexivity|]. split; [reflexivity|]. split; [exact R4|]. split; [exact Ht'|]. split; [exact R6|].
        intros Hs. apply S5. destruct (t' =? xr_pos y) eqn:Ep; [right|left; lia]. rewrite R3. apply R7. now rewrite andb_true_r in Hs.
      + destruct (seek_bad w2 off wh r y R3 R4 R5 R6 Hoff Ew Et) as (i & S1). rewrite S1. cbn [rmap]. eexists _, _, _. split; [reflexivity|]. split; [reflexivity|].
        apply (G (Some r)). rewrite Hx. auto 10.
    - destruct (x_read s2) as [y|] eqn:Ey; [contradiction|]. assert (Ey0 : x_read (x_flush s) = None).
      { destruct (x_read (x_flush s)) as [y0|] eqn:Ez; [|reflexivity]. destruct (K5 y0 eq_refl) as (y' & Y1 & _). congruence. }
      rewrite Ey0. unfold bind. cbn [ret option_map]. eexists _, _, _. split; [reflexivity|]. split; [reflexivity|].
      replace (m_set_start t (m_set_off t m2)) with (m_set_read None (m_set_start t (m_set_off t m2))) by (apply m_set_read_eta; exact Er). apply G. exact I.
  Qed.

  (** Moving to the place of a WriteAt. *)
  Lemma xinv_elsewhere s m w b off : xinv s m w -> x_ok s (MWriteAt b off) -> exists m' w',
    ((do sz <- mSize ;; do _ <- (if sz <? off then expandSparse (i64 (off - sz)) else ret tt) ;; do _ <- Sync split ;; upd_mod (m_set_start off)) : M mst unit) (m, w) = (Ok tt, (m', w')) /\
    xinv (let s1 := x_flush (x_extend (zlen (x_file s) + (off - zlen (x_content s))) s) in mkX (x_file s1) None off (x_pos s1) (x_read s1)) m' w'.
  Proof.
    intros H (Ho & He & _ & Hp). unfold bind at 1. rewrite (xinv_Size _ _ _ H). destruct (xi_flush_len _ _ _ H) as [Hl H0]. pose proof (zlen_nonneg b) as Hb0.
    assert (Hcf : zlen (x_file s) <= zlen (x_content s)).
    { unfold x_content. destruct (x_buf s); [|lia]. rewrite put_length by apply H. lia. }
    destruct (xinv_extend s m w (off - zlen (x_content s)) H ltac:(lia) ltac:(lia)) as (m2 & w2 & X1 & H2).
    replace (0 <? off - zlen (x_content s)) with (zlen (x_content s) <? off) in X1 by lia.
    unfold bind at 1. rewrite X1. set (s2 := x_extend _ s) in *. destruct (xinv_Sync _ _ _ H2) as (m3 & w3 & X3 & H3). unfold bind. rewrite X3. unfold upd_mod. cbn [fst snd].
    eexists _, _. split; [reflexivity|]. cbv zeta. pose proof (x_flush_buf s2) as Fb. destruct H3 as [A1 A2 A3 A4 A5 A6 A7 A8 A9 A10 A11].
    constructor; cbn [x_file x_buf x_start x_pos x_read m_set_start m_node m_buf m_off m_start m_read] in *; auto; try lia.
    - now rewrite A5.
    - unfold x_end, x_pending. cbn [x_buf x_start]. rewrite zlen_nil. lia.
    - destruct (m_read m3), (x_read (x_flush s2)); try contradiction; auto. destruct A11 as (_ & A11). auto.
  Qed.

  Lemma x_place_end b off s : 0 <= x_start s -> off + zlen b < 9223372036854775808 -> x_end s + zlen b < 9223372036854775808 -> x_pos (x_place b off s) = x_pos s /\ x_end (x_place b off s) + zlen b < 9223372036854775808.
  Proof using. clear split_ok split wbsize.
    intros Hs Ho He. unfold x_place. set (e := _ + _). set (s1 := x_flush (x_extend e s)).
    assert (A : x_pos s1 = x_pos s) by (unfold s1; rewrite x_flush_pos; apply x_extend_keep).
    assert (B : x_pos (if off =? x_pos s then s else mkX (x_file s1) None off (x_pos s1) (x_read s1)) = x_pos s /\
      x_end (if off =? x_pos s then s else mkX (x_file s1) None off (x_pos s1) (x_read s1)) + zlen b < 9223372036854775808).
    { destruct (off =? x_pos s); [auto|]. split; [exact A|]. unfold x_end, x_pending. cbn [x_buf x_start]. rewrite zlen_nil. lia. }
    destruct (x_buf s) as [x|] eqn:Eb; [|exact B]. destruct (off =? x_start s); [|exact B]. destruct (zlen x <=? zlen b); [|auto].
    split; [reflexivity|]. unfold x_end, x_pending in *. cbn [x_buf x_start] in *. rewrite zlen_nil. rewrite Eb in He. pose proof (zlen_nonneg x). lia.
  Qed.

  Lemma call_WriteAt s m w b off : xinv s m w -> x_ok s (MWriteAt b off) -> call_ok s (MWriteAt b off) (m, w).
  Proof.
    intros H Hok. pose proof Hok as (Ho & He & Hx & Hp). unfold call_ok. cbn [mod_call x_answer x_next]. unfold WriteAt. unfold bind at 1, get_mod at 1. cbn [fst].
    pose proof (zlen_nonneg b) as Hb0. rewrite (xi_buf _ _ _ H), (xi_moff _ _ _ H), (xi_mstart _ _ _ H), (u64_small off) by (unfold two64; lia).
    pose proof (xi_start _ _ _ H) as Hs. pose proof (xi_end _ _ _ H) as Hxe.
    assert (P : exists m1 w1, ((match x_buf s with
             | Some buf =>
                 if off =? i64 (x_start s) then if zlen buf <=? zlen b then upd_mod (m_set_buf (Some [])) else ret tt
                 else if off =? x_pos s then ret tt
                 else do sz <- mSize ;; do _ <- (if sz <? off then expandSparse (i64 (off - sz)) else ret tt) ;; do _ <- Sync split ;; upd_mod (m_set_start off)
             | None =>
                 if off =? x_pos s then ret tt
                 else do sz <- mSize ;; do _ <- (if sz <? off then expandSparse (i64 (off - sz)) else ret tt) ;; do _ <- Sync split ;; upd_mod (m_set_start off)
             end) : M mst unit) (m, w) = (Ok tt, (m1, w1)) /\ xinv (x_place b off s) m1 w1).
    { destruct (xinv_elsewhere s m w b off H Hok) as (m1 & w1 & P1 & P2). unfold x_place.
      assert (Q : exists m1 w1, ((if off =? x_pos s then ret tt
                 else do sz <- mSize ;; do _ <- (if sz <? off then expandSparse (i64 (off - sz)) else ret tt) ;; do _ <- Sync split ;; upd_mod (m_set_start off)) : M mst unit) (m, w) = (Ok tt, (m1, w1)) /\
         xinv (if off =? x_pos s then s else let s1 := x_flush (x_extend (zlen (x_file s) + (off - zlen (x_content s))) s) in mkX (x_file s1) None off (x_pos s1) (x_read s1)) m1 w1).
      { destruct (off =? x_pos s); [exists m, w; auto|]. exists m1, w1. auto. }
      destruct (x_buf s) as [x|] eqn:Eb; [|exact Q]. pose proof (zlen_nonneg x) as Hx0.
      rewrite (i64_small (x_start s)) by (unfold x_end, x_pending in Hxe; rewrite Eb in Hxe; lia). destruct (off =? x_start s) eqn:E1; [|exact Q].
      destruct (zlen x <=? zlen b); [|exists m, w; auto]. eexists _, _. split; [reflexivity|].
      destruct H as [A1 A2 A3 A4 A5 A6 A7 A8 A9 A10 A11]. constructor; cbn [x_file x_buf x_start x_pos x_read m_set_buf m_node m_buf m_off m_start m_read] in *; auto.
      - unfold x_end, x_pending in *. cbn [x_buf x_start] in *. rewrite zlen_nil. rewrite Eb in Hxe. lia.
      - cbn [fst]. destruct (m_read m), (x_read s); try contradiction; auto. destruct A11 as (A11 & _). congruence. }
    destruct P as (m1 & w1 & P1 & P2). unfold bind at 1. rewrite P1. destruct (x_place_end b off s Hs He Hx) as [Q1 Q2].
    destruct (xinv_Write _ _ _ b P2 Q2 ltac:(rewrite Q1; lia)) as (m' & w' & X & H'). rewrite X. eexists _, _, _. split; [reflexivity|]. split; [reflexivity|exact H'].
  Qed.

  Lemma call_Read s m w k : xinv s m w -> x_ok s (MRead k) -> call_ok s (MRead k) (m, w).
  Proof.
    intros H [Hns Hmax]. destruct (xinv_Sync _ _ _ H) as (m1 & w1 & E & H1). destruct (xi_node _ _ _ H1) as (n & Hn & Hf & Hg & Ha).
    pose proof (x_flush_buf s) as Fb. pose proof (x_flush_file s) as Ff. pose proof (x_flush_pos s) as Fp. unfold call_ok. cbn [mod_call x_answer x_next]. rewrite <- Ff, <- Fp in *.
    set (t := x_flush s) in *. set (y := x_reader t) in *.
    pose proof (xi_len _ _ _ H1) as Hl. pose proof (xi_pos _ _ _ H1) as Hp. pose proof (zlen_nonneg (x_file t)) as H0. pose proof (xi_moff _ _ _ H1) as Eo.
    assert (P : exists m2 r, readPrep split (m, w) = (Ok tt, (m2, w1)) /\ m2 = m_set_read (Some r) m1 /\
      r_root r = n /\ r_size r = xr_size y /\ reader_at (x_file t) (xr_pos y) r /\ 0 <= xr_pos y < 9223372036854775808 /\ 0 <= xr_size y < 9223372036854775808).
    { unfold readPrep, bind at 1. rewrite E. unfold bind at 1, get_mod at 1. cbn [fst]. pose proof (xi_read _ _ _ H1) as Hr. unfold y, x_reader in *. destruct (m_read m1) as [r|] eqn:Er.
      - destruct (x_read t) as [y0|]; [|contradiction]. destruct Hr as (_ & R2 & R3 & R4 & R5 & R6 & R7). exists m1, r. cbn [ret]. split; [reflexivity|]. split; [destruct m1; cbn in *; now rewrite Er|].
        split; [congruence|]. auto.
      - destruct (x_read t); [contradiction|]. cbn [xr_pos xr_size].
        unfold bind at 1. cbn [fst]. rewrite Hn. unfold bind at 1, get_world at 1. cbn [snd]. unfold bind at 1, lift at 1.
        rewrite (new_file w1 n (x_file t) Hf) by lia. set (r0 := mkReader _ _ _ _ _). rewrite Eo, (i64_small (x_pos t)) by lia.
        assert (R0 : reader_at (x_file t) 0 r0) by (apply reader_at_new; destruct Hf as (cs & Hcs & ->); now apply file_dag_tree).
        destruct (seek_any w1 (x_file t) (x_pos t) 0 r0 (x_pos t) Hf Hl (available_below _ _ Ha) ltac:(auto) ltac:(lia) Hp) as (r' & S1 & S3 & S4 & _ & S2).
        specialize (S2 (or_intror R0)). rewrite S1. unfold bind, lift. rewrite Z.eqb_refl. exists (m_set_read (Some r') m1), r'. split; [reflexivity|]. split; [reflexivity|].
        split; [exact S3|]. split; [exact S4|]. split; [exact S2|]. split; [exact Hp|lia]. }
    destruct P as (m2 & r & P1 & P2 & P3 & P4 & P5 & P6 & P7).
    unfold mRead, bind. rewrite P1. cbn [fst snd]. subst m2. cbn [m_set_read m_read].
    destruct (read_step w1 (x_file t) (xr_pos y) k r P5) as (o & r' & pos' & S1 & S2 & S3 & S4 & S5). cbn [reader_step] in S1.
    destruct S5 as [S5|[S5 _]]; [|exfalso; apply S5; rewrite P3; now apply available_below].
    destruct (CtxReadFull w1 k r) as [[b e] r1].
    assert (Ee : exists x, obs_err e = Some x /\ o = (b, zlen b, x) /\ r' = r1).
    { destruct (obs_err e) as [x|]; [|discriminate]. injection S1 as <- <-. eauto. }
    destruct Ee as (x & Ex & -> & ->).
    assert (Eb : b = read_at (x_file t) (xr_pos y) k /\ pos' = xr_pos y + zlen b) by (inversion S5; subst; auto). destruct Eb as [Eb Epos].
    assert (Hb : zlen b <= Z.max 0 (zlen (x_file t) - xr_pos y)) by (rewrite Eb; apply read_at_len). pose proof (zlen_nonneg b) as Hb0.
    rewrite <- Eb in *.
    assert (HI : xinv (mkX (x_file t) None (x_start t) (x_pos t + zlen b) (Some (mkR (xr_pos y + zlen b) (xr_size y) (xr_stale y))))
       (m_set_off (u64 (m_off m1 + zlen b)) (m_set_read (Some r1) m1)) w1).
    { rewrite Eo, u64_small by (unfold two64; lia). destruct H1 as [A1 A2 A3 A4 A5 A6 A7 A8 A9 A10 A11].
      constructor; cbn [x_file x_buf x_start x_pos x_read m_set_off m_set_read m_node m_buf m_off m_start m_read xr_pos xr_size xr_stale] in *; auto; try lia.
      - now rewrite A5.
      - unfold x_end, x_pending in *. rewrite Fb in A10. cbn [x_buf x_start] in *. exact A10.
      - split; [reflexivity|]. split; [congruence|]. rewrite <- Epos. split; [exact (ra_off _ _ _ S2)|]. split; [congruence|]. split; [lia|]. split; [exact P7|]. intros _. exact S2. }
    change (m_off (m_set_read (Some r) m1)) with (m_off m1).
    destruct e as [[]|e| |]; cbn [obs_err] in Ex; try discriminate; injection Ex as <-; eexists _, _, _; (split; [reflexivity|]); (split; [eexists _, _, _; split; [reflexivity|exact S5]|exact HI]).
  Qed.

  Lemma call_any s op m w : xinv s m w -> x_ok s op -> call_ok s op (m, w).
  Proof.
    intros H Ho. destruct op; [now apply call_Write|now apply call_WriteAt|now apply call_Seek|now apply call_Truncate|now apply call_Read|now apply call_Size|now apply call_Sync|now apply call_GetNode].
  Qed.

  Lemma calls_exact ops : forall s m w, xinv s m w -> all_ok wbsize s ops ->
    exists h m' w', mod_calls split wbsize ops (m, w) = (h, (m', w')) /\ map (fun x => fst (fst x)) h = ops /\ exactly wbsize s h /\ xinv (x_after wbsize s ops) m' w'.
  Proof.
    induction ops as [|op r IH]; intros s m w H Ha; [exists [], m, w; cbn; auto|]. destruct Ha as [Ha Hr].
    destruct (call_any s op m w H Ha) as (o & m' & w' & S1 & S2 & S3). destruct (IH _ _ _ S3 Hr) as (h & m2 & w2 & I1 & I2 & I3 & I4).
    exists ((op, o, w') :: h), m2, w2. cbn [mod_calls]. rewrite S1, I1. cbn [map fst exactly snd]. split; [reflexivity|]. split; [now rewrite I2|]. auto.
  Qed.

  Lemma xinv_new n c w : file_content n c -> growable K n -> available w n -> can_add w -> serves w -> zlen c < 9223372036854775808 ->
    xinv (x_new c) (NewDagModifier n) w.
  Proof using. clear split_ok split wbsize.
    intros H1 H2 H3 H4 H5 H6. constructor; cbn; auto; try lia; [eauto 10|]. reflexivity.
  Qed.
End Exact.
