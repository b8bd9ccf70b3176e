(** Lemmas about changing files in place: overwriting and truncating trees. *)
From Verif Require Import Base Pb PbProofs FSNode FSNodeProofs Dag DagProofs Builder Trickle Importer Reader Modifier
  SpecFile SpecAppend SpecReader SpecModifier BuilderProofs TrickleProofs ImportProofs AppendProofs AppendRun ReaderProofs GrowProofs.

(** ** Writing over a list of bytes *)

(** What overwriting makes of [c], without extending it. *)
Definition ow (c : bytes) (o : Z) (b : bytes) : bytes := ztake o c ++ ztake (zlen c - o) b ++ zdrop (o + zlen b) c.

Lemma ztake_neg {A} n (l : list A) : n <= 0 -> ztake n l = [].
Proof. intros H. unfold ztake. replace (Z.to_nat n) with O by lia. reflexivity. Qed.
Lemma zdrop_neg {A} n (l : list A) : n <= 0 -> zdrop n l = l.
Proof. intros H. unfold zdrop. replace (Z.to_nat n) with O by lia. reflexivity. Qed.
Lemma ztake_nil {A} n : ztake n (@nil A) = [].
Proof. apply firstn_nil. Qed.
Lemma zdrop_nil {A} n : zdrop n (@nil A) = [].
Proof. apply skipn_nil. Qed.

Lemma ow_past c o b : zlen c <= o -> ow c o b = c.
Proof.
  intros H. unfold ow. rewrite ztake_all, ztake_neg, zdrop_all by (pose proof (zlen_nonneg b); lia). now rewrite !app_nil_r.
Qed.
Lemma ow_nil c o : 0 <= o -> ow c o [] = c.
Proof. intros H. unfold ow. rewrite ztake_nil, zlen_nil, Z.add_0_r. cbn [app]. apply ztake_zdrop. Qed.

Lemma ow_app c1 c2 o b : 0 <= o ->
  ow (c1 ++ c2) o b = ow c1 o b ++ ow c2 (Z.max 0 (o - zlen c1)) (zdrop (zlen c1 - o) b).
Proof.
  intros Ho. pose proof (zlen_nonneg b) as Hb. pose proof (zlen_nonneg c1) as H1. pose proof (zlen_nonneg c2) as H2.
  destruct (Z_le_gt_dec (zlen c1) o) as [Hle|Hgt].
  - rewrite (ow_past c1) by lia. rewrite zdrop_neg by lia. rewrite Z.max_r by lia. unfold ow.
    rewrite ztake_app_r, zdrop_app_r, zlen_app by lia. rewrite <- app_assoc. f_equal. f_equal. f_equal; [f_equal; lia|f_equal; lia].
  - rewrite Z.max_l by lia. unfold ow. rewrite ztake_app_l by lia. rewrite <- !app_assoc. f_equal. rewrite ztake_0. cbn [app].
    rewrite zlen_app. destruct (Z_le_gt_dec (zlen b) (zlen c1 - o)) as [Hs|Hs].
    + rewrite (ztake_all _ b) by lia. rewrite (ztake_all _ b) by lia. f_equal. rewrite zdrop_app_l by lia. f_equal.
      rewrite zdrop_all by lia. rewrite ztake_nil. change (zlen (@nil byte)) with 0. cbn [app]. now rewrite zdrop_neg by lia.
    + rewrite (zdrop_all (o + zlen b) c1) by lia. cbn [app]. rewrite zdrop_app_r by lia.
      rewrite app_assoc. f_equal.
      * replace (zlen c1 + zlen c2 - o) with ((zlen c1 - o) + zlen c2) by lia.
        rewrite Z.sub_0_r. rewrite <- zdrop_ztake by lia.
        rewrite <- (ztake_zdrop (zlen c1 - o) (ztake (zlen c1 - o + zlen c2) b)) at 1. f_equal.
        unfold ztake. rewrite firstn_firstn. f_equal. lia.
      * f_equal. rewrite zlen_zdrop by lia. lia.
Qed.

Lemma left_app c1 c2 o (b : bytes) : 0 <= o ->
  zdrop (zlen (c1 ++ c2) - o) b = zdrop (zlen c2 - Z.max 0 (o - zlen (A := byte) c1)) (zdrop (zlen c1 - o) b).
Proof.
  intros Ho. rewrite zlen_app. pose proof (zlen_nonneg c1). pose proof (zlen_nonneg c2). destruct (Z_le_gt_dec (zlen c1) o) as [Hle|Hgt].
  - rewrite (zdrop_neg (zlen c1 - o)) by lia. f_equal. lia.
  - rewrite Z.max_l by lia. rewrite zdrop_zdrop by lia. f_equal. lia.
Qed.

Lemma ow_len c o b : 0 <= o <= zlen c -> zlen (ow c o b) = zlen c.
Proof.
  intros H. unfold ow. rewrite !zlen_app. unfold zlen, ztake, zdrop in *. rewrite !firstn_length, skipn_length. lia.
Qed.
Lemma ow_len' c o b : 0 <= o -> zlen (ow c o b) = zlen c.
Proof. intros H. destruct (Z_le_gt_dec (zlen c) o); [now rewrite ow_past|apply ow_len; lia]. Qed.

Lemma put_ow c o b : 0 <= o <= zlen c -> put c o b = ow c o b ++ zdrop (zlen c - o) b.
Proof.
  intros H. unfold put, ow, pad. replace (Z.to_nat (o - zlen c)) with O by lia. cbn [repeat]. rewrite app_nil_r, <- !app_assoc. f_equal.
  destruct (Z_le_gt_dec (zlen b) (zlen c - o)) as [Hs|Hs].
  - rewrite ztake_all, (zdrop_all (zlen c - o)) by lia. now rewrite app_nil_r.
  - rewrite (zdrop_all (o + zlen b)) by lia. rewrite app_nil_r. cbn [app]. symmetry. apply ztake_zdrop.
Qed.

Lemma zlen_repeat {A} (x : A) n : zlen (repeat x n) = Z.of_nat n.
Proof. unfold zlen. now rewrite repeat_length. Qed.
Lemma pad_len c n : zlen (pad c n) = Z.max (zlen c) n.
Proof. unfold pad. rewrite zlen_app, zlen_repeat. pose proof (zlen_nonneg c). lia. Qed.
Lemma pad_small c n : n <= zlen c -> pad c n = c.
Proof. intros H. unfold pad. replace (Z.to_nat (n - zlen c)) with O by lia. apply app_nil_r. Qed.
Lemma put_len c o b : 0 <= o -> zlen (put c o b) = Z.max (zlen c) (o + zlen b) \/ (b = [] /\ zlen (put c o b) = Z.max (zlen c) o).
Proof.
  intros H. left. unfold put. rewrite !zlen_app. rewrite zlen_ztake by (rewrite pad_len; lia).
  pose proof (zlen_nonneg b). pose proof (zlen_nonneg c). unfold zlen, zdrop in *. rewrite skipn_length. lia.
Qed.
Lemma put_pad c o b : put (pad c o) o b = put c o b.
Proof.
  unfold put. rewrite (pad_small (pad c o)) by (rewrite pad_len; lia). f_equal. f_equal. unfold pad.
  destruct (Z_le_gt_dec o (zlen c)).
  - replace (Z.to_nat (o - zlen c)) with O by lia. cbn [repeat]. now rewrite app_nil_r.
  - pose proof (zlen_nonneg b). rewrite zdrop_app_r by lia. rewrite (zdrop_all _ c) by lia. apply zdrop_all. rewrite zlen_repeat. lia.
Qed.

(** ** Shapes *)

Lemma same_shape_refl n : same_shape n n.
Proof.
  induction n as [p d|p b ls IH] using DagProofs.node_ind'; [now constructor|]. constructor; auto.
  induction IH; cbn; constructor; auto.
Qed.

Lemma Forall2_nth {A B} (R : A -> B -> Prop) l m i y : Forall2 R l m -> nth_error m i = Some y ->
  exists x, nth_error l i = Some x /\ R x y.
Proof. intros H. revert i. induction H as [|a b l m Ha H IH]; intros [|i] E; cbn in *; try discriminate; [injection E as <-|]; eauto. Qed.

Lemma growable_shape k : forall n n' D, same_shape n n' -> loose k 4 (fun _ => True) (trickle_inner (fun _ => True)) D n ->
  loose k 4 (fun _ => True) (trickle_inner (fun _ => True)) D n'.
Proof.
  induction n as [p d|p b ls IH] using DagProofs.node_ind'; intros n' D S H; apply loose_inv in H as (H1 & H2 & H3 & H4); destruct H1 as (q & b0 & ls0 & f & E & _ & Hf & Ht & Hd); [discriminate|].
  injection E as <- <- <-. inversion S as [|? ? b' f' data S1 S2 S3 _|? ? ? ls' Sn Sz SF]; subst.
  - rewrite Hf in S1. injection S1 as <-. constructor.
    + exists p, b', [], (set_data data f). split; [reflexivity|]. split; [exact I|]. split; [assumption|].
      split; [exact Ht|]. rewrite Hd in S3. apply zlen_0_nil. exact S3.
    + intros i l Hn. now destruct i.
    + intros i l Hn. now destruct i.
    + intros i l Hn. now destruct i.
  - assert (G : forall i l', nth_error ls' i = Some l' -> exists l, nth_error ls i = Some l /\ same_shape (lto l) (lto l')).
    { intros i l' Hn. assert (Hm : nth_error (map lto ls') i = Some (lto l')) by now rewrite nth_error_map, Hn.
      destruct (Forall2_nth _ _ _ _ _ SF Hm) as (x & Hx & Hs). rewrite nth_error_map in Hx.
      destruct (nth_error ls i) as [l|] eqn:El; [|discriminate]. injection Hx as <-. eauto. }
    constructor; cbn [node_links].
    + exists p, b, ls', f. auto 6.
    + auto.
    + intros i l' Hn Hi. destruct (G i l' Hn) as (l & Hl & _). exact (H3 i l Hl Hi).
    + intros i l' Hn Hi. destruct (G i l' Hn) as (l & Hl & Hs). rewrite Forall_forall in IH.
      apply (IH l (nth_error_In _ _ Hl) (lto l') _ Hs). exact (H4 i l Hl Hi).
Qed.

Lemma same_shape_links n n' : same_shape n n' -> (node_links n = [] <-> node_links n' = []).
Proof.
  intros H. inversion H as [| |? ? ls ls' Hn]; subst; cbn; try tauto.
  destruct ls, ls'; cbn in *; try discriminate; split; congruence.
Qed.

Lemma same_shape_len n n' : same_shape n n' -> canonical_leaves n -> block_len n' = block_len n /\ node_prefix n' = node_prefix n.
Proof.
  intros H. inversion H as [p d d' Hd|p b b' f data H1 H2 H3 H4|p b ls ls' Hn Hz HF]; subst; intros Hc; (split; [|reflexivity]); cbn [block_len].
  - now rewrite Hd.
  - destruct (Hc p b (reach_self _)) as (f' & F1 & F2). rewrite H1 in F1. injection F1 as <-. destruct (H4 F2) as [-> _]. reflexivity.
  - f_equal. clear Hc H. revert ls' Hn Hz HF. induction ls as [|l ls IH]; intros [|l' ls'] Hn Hz HF; cbn in *; try discriminate; [reflexivity|].
    injection Hn as Hn1 Hn2. injection Hz as Hz1 Hz2. inversion HF as [|? ? ? ? F1 F2]; subst. specialize (IH _ Hn2 Hz2 F2).
    unfold sumZ in *. rewrite IH. f_equal. unfold link_len. rewrite <- Hn1, <- Hz1.
    assert (Hp : node_prefix (lto l') = node_prefix (lto l)) by now inversion F1. now rewrite Hp.
Qed.

Lemma canonical_child n l : canonical_leaves n -> In l (node_links n) -> canonical_leaves (lto l).
Proof. intros H Hl p b Hr. eapply H, reach_link; eassumption. Qed.

Lemma reach_leaf n m : node_links n = [] -> reach n m -> m = n.
Proof. intros H R. inversion R as [|? l ? Hl]; subst; [reflexivity|]. rewrite H in Hl. destruct Hl. Qed.

Lemma cumulative_shape : forall n n', same_shape n n' -> canonical_leaves n -> cumulative n' = cumulative n.
Proof.
  induction n as [p d|p b ls IH] using DagProofs.node_ind'; intros n' S Hc; destruct (same_shape_len _ _ S Hc) as [Hb _].
  - inversion S; subst. cbn in *. congruence.
  - inversion S as [|? ? b' f data S1 S2 S3 S4|? ? ? ls' Hn Hz HF]; subst.
    + cbn [cumulative map fold_right] in *. congruence.
    + cbn [cumulative]. rewrite Hb. f_equal. clear Hb S Hn Hz. assert (Hc' : forall l, In l ls -> canonical_leaves (lto l)) by (intros l Hl; eapply canonical_child; [exact Hc|exact Hl]).
      clear Hc. revert ls' HF. induction IH as [|l ls Hl HI IHl]; intros [|l' ls'] HF; cbn in *; inversion HF; subst; [reflexivity|].
      f_equal; [apply Hl; auto|apply IHl; auto].
Qed.

Lemma tsizes_shape : forall n n', same_shape n n' -> canonical_leaves n -> tsizes_exact n -> tsizes_exact n'.
Proof.
  induction n as [p d|p b ls IH] using DagProofs.node_ind'; intros n' S Hc Ht.
  - inversion S; subst. intros m l Hr Hl. apply reach_leaf in Hr; [|reflexivity]. subst m. destruct Hl.
  - inversion S as [|? ? b' f data S1 S2 S3 S4|? ? ? ls' Hn Hz HF]; subst.
    + intros m l Hr Hl. apply reach_leaf in Hr; [|reflexivity]. subst m. destruct Hl.
    + apply tsizes_node. apply tsizes_links in Ht. cbn [node_links] in *. unfold links_exact in *.
      assert (Hc' : forall l, In l ls -> canonical_leaves (lto l)) by (intros l Hl; eapply canonical_child; [exact Hc|exact Hl]).
      clear Hc S. revert ls' Hn Hz HF. induction IH as [|l ls Hl HI IHl]; intros [|l' ls'] Hn Hz HF; cbn in *; inversion HF; subst; [constructor|].
      injection Hn as Hn1 Hn2. injection Hz as Hz1 Hz2. inversion Ht as [|? ? [T1 T2] T3]; subst. constructor; [|apply IHl; auto].
      split; [|apply Hl; auto]. rewrite <- Hz1, T1. f_equal. symmetry. apply cumulative_shape; auto.
Qed.

(** ** Encoding a leaf *)

Lemma enc_optbytes_len t o o' : (o = None <-> o' = None) -> zlen (obytes o) = zlen (obytes o') -> zlen (enc_optbytes t o) = zlen (enc_optbytes t o').
Proof.
  intros Hn Hl. destruct o as [v|], o' as [v'|]; cbn [enc_optbytes obytes] in *; [|destruct Hn as [_ Hn]; discriminate (Hn eq_refl)|destruct Hn as [Hn _]; discriminate (Hn eq_refl)|reflexivity].
  rewrite !zlen_app, Hl. reflexivity.
Qed.

Lemma leaf_encode b f data : FSNodeFromBytes b = Ok f -> zlen (obytes data) = zlen (getData f) -> (data = None <-> d_data f = None) ->
  exists b', GetBytes (set_data data f) = Ok b' /\ FSNodeFromBytes b' = Ok (set_data data f) /\
    (GetBytes f = Ok b -> zlen b' = zlen b).
Proof.
  intros H Hl Hn. apply unmarshal_good in H as [[(A1 & A2 & A3 & A4 & A5 & A6) U] [t Ht]]. unfold GetBytes, marshal_data at 1. cbn [set_data d_type]. rewrite Ht.
  eexists. split; [reflexivity|]. split.
  - eapply unmarshal_marshal; [|unfold marshal_data; cbn [set_data d_type]; rewrite Ht; reflexivity]. split; [|exact U]. unfold fields_ok. cbn. split; [assumption|]. split; [|auto].
    destruct data as [v|]; [|exact I]. cbn [obytes] in Hl. rewrite Hl. unfold getData. destruct (d_data f); [exact A2|rewrite ?zlen_nil; cbn; reflexivity].
  - unfold marshal_data. rewrite Ht. intros E. apply Ok_inj in E. subst b. cbn [set_data d_data d_filesize d_blocksizes d_hashtype d_fanout d_unrec].
    rewrite !zlen_app. rewrite (enc_optbytes_len 18 data (d_data f)); [reflexivity|exact Hn|exact Hl].
Qed.

(** ** The store *)

Lemma add_cases n w : match dserv_add n None w with
  | (Ok _, w') => w_added w' = w_added w ++ [(seal n, None)] /\ wgrow w w'
  | (Err _, w') => ~ can_add w /\ wgrow w w'
  | _ => False
  end.
Proof.
  pose proof (add_grow n None w) as G. unfold dserv_add in *. destruct (w_addok w (w_calls w)) eqn:E; cbn [snd] in G; [auto|].
  split; [|exact G]. intros H. rewrite H in E. discriminate.
Qed.

Lemma get_cases w n : match dserv_get w n with
  | Ok c => c = n
  | Err _ => ~ (stored w n = true /\ serves w)
  | _ => False
  end.
Proof.
  unfold dserv_get. destruct (stored w n) eqn:E1, (w_getok w n) eqn:E2; cbn; auto; intros [H1 H2]; try discriminate. rewrite H2 in E2. discriminate.
Qed.

Lemma wgrow_stored w w' m : wgrow w w' -> stored w m = true -> stored w' m = true.
Proof.
  intros ((a & Ha) & Hh & _) H. apply stored_iff in H. apply stored_iff. rewrite Hh, Ha, map_app, in_app_iff. tauto.
Qed.
Lemma wgrow_get w w' m : wgrow w w' -> dserv_get w m = Ok m -> dserv_get w' m = Ok m.
Proof.
  intros G H. apply get_iff in H as [H1 H2]. apply get_iff. split; [now apply (wgrow_stored w)|]. destruct G as (_ & _ & _ & ->). exact H2.
Qed.
Lemma wgrow_can_add w w' : wgrow w w' -> can_add w -> can_add w'.
Proof. intros (_ & _ & G & _) H i. rewrite G. apply H. Qed.
Lemma wgrow_serves w w' : wgrow w w' -> serves w -> serves w'.
Proof. intros (_ & _ & _ & G) H i. rewrite G. apply H. Qed.
Lemma wgrow_below w w' n : wgrow w w' -> below_available w n -> below_available w' n.
Proof. intros G H l m Hl Hr. eapply wgrow_get; eauto. Qed.
Lemma wgrow_good w w' n : wgrow w w' -> good_store w n -> good_store w' n.
Proof. intros G (H1 & H2 & H3). split; [|split]; [eapply wgrow_can_add|eapply wgrow_serves|eapply wgrow_below]; eassumption. Qed.

Lemma good_child w n l : good_store w n -> In l (node_links n) -> good_store w (lto l) /\ dserv_get w (lto l) = Ok (lto l).
Proof.
  intros (H1 & H2 & H3) Hl. split.
  - split; [|split]; auto. intros l' m Hl' Hr. eapply H3; [exact Hl|]. eapply reach_link; eassumption.
  - eapply H3; [exact Hl|constructor].
Qed.

Lemma good_from w w' n n' a : wgrow w w' -> w_added w' = w_added w ++ a -> good_store w n -> blocks_from n n' a -> good_store w' n'.
Proof.
  intros G Ea (H1 & H2 & H3) B. split; [eapply wgrow_can_add; eassumption|]. split; [eapply wgrow_serves; eassumption|].
  intros l m Hl Hr. destruct (B l m Hl Hr) as [(l0 & Hl0 & Hr0)|Hi].
  - eapply wgrow_get; [exact G|]. eapply H3; eassumption.
  - apply get_iff. split; [|eapply wgrow_serves; eassumption]. apply stored_added. rewrite Ea, map_app. apply in_or_app. now right.
Qed.

(** ** modifyDag *)

(** What a successful overwrite of [n] makes of it. *)
Record modified (n : node) (cs : list bytes) (off : Z) (buf : bytes) (w : world) (n' : node) (buf' : bytes) (w' : world) : Prop := {
  mo_dag : exists cs', file_dag n' cs' /\ concat cs' = ow (concat cs) off buf;
  mo_buf : buf' = zdrop (zlen (concat cs) - off) buf;
  mo_shape : same_shape n n';
  mo_added : exists a, w_added w' = w_added w ++ a /\ In n' (map fst a) /\ blocks_from n n' a;
  mo_seal : seal n' = n'
}.

Definition modify_post (n : node) (cs : list bytes) (off : Z) (buf : bytes) (w : world) (x : res node * bytes * world) : Prop :=
  let '(r, buf', w') := x in
  wgrow w w' /\
  match r with
  | Ok n' => modified n cs off buf w n' buf' w'
  | Err _ => ~ good_store w n
  | Panic => False
  | Fuel => False
  end.

Lemma file_dag_leaf_inv n cs : file_dag n cs -> node_links n = [] ->
  (exists p d, n = NRaw p d /\ cs = [d]) \/
  (exists p b fs, n = NProto p b [] /\ cs = [getData fs] /\ FSNodeFromBytes b = Ok fs /\ (getType fs = TFile \/ getType fs = TRaw) /\
    d_blocksizes fs = [] /\ d_filesize fs = Some (mod64 (zlen (getData fs)))).
Proof.
  intros H. inversion H; subst; cbn; intros E; [left; eauto|right; eauto 12|congruence].
Qed.

Lemma buf_read_ow d off buf : 0 <= off <= zlen d -> ztake off d ++ fst (buf_read (zdrop off d) buf) = ow d off buf /\
  snd (buf_read (zdrop off d) buf) = zdrop (zlen d - off) buf.
Proof.
  intros H. unfold buf_read, ow. cbn [fst snd]. split.
  - f_equal. f_equal.
    + unfold ztake, zdrop. f_equal. rewrite skipn_length. unfold zlen in *. lia.
    + change (skipn (length buf) (zdrop off d)) with (skipn (length buf) (zdrop off d)). unfold zdrop. rewrite skipn_skipn'.
      f_equal. unfold zlen in *. lia.
  - unfold zdrop. f_equal. rewrite skipn_length. unfold zlen in *. lia.
Qed.

Lemma modify_leaf_spec n cs off buf w : file_dag n cs -> node_links n = [] -> 0 <= off <= zlen (concat cs) ->
  modify_post n cs off buf w (modify_leaf n off buf w).
Proof.
  intros Hf Hl Ho. unfold modify_post.
  assert (G : forall n', (exists cs', file_dag n' cs' /\ concat cs' = ow (concat cs) off buf) -> same_shape n n' -> node_links n' = [] ->
    let '(r, buf', w') := add_leaf n' (zdrop (zlen (concat cs) - off) buf) w in
    wgrow w w' /\ match r with Ok n' => modified n cs off buf w n' buf' w' | Err _ => ~ good_store w n | Panic => False | Fuel => False end).
  { intros n' Hd Hs Hl'. unfold add_leaf. pose proof (add_cases n' w) as A. destruct (dserv_add n' None w) as [[u|e| |] w']; try destruct A as [A1 A2].
    - split; [exact A2|]. assert (Es : seal n' = n') by (destruct Hd as (cs' & Hd & _); eapply file_dag_seal, Hd). rewrite Es in *. constructor; auto.
      eexists. split; [exact A1|]. split; [now left|]. intros l m Hin. rewrite Hl' in Hin. destruct Hin.
    - split; [assumption|]. intros (C & _). auto.
    - destruct A.
    - destruct A. }
  destruct (file_dag_leaf_inv _ _ Hf Hl) as [(p & d & -> & ->)|(p & b & fs & -> & -> & Hd & Ht & Hb & Hsz)]; cbn [modify_leaf concat] in *; rewrite app_nil_r in *.
  - replace (zlen d <? off) with false by lia. destruct (buf_read_ow d off buf Ho) as [E1 E2]. destruct (buf_read (zdrop off d) buf) as [new buf']. cbn [fst snd] in *.
    rewrite E1, E2. apply G; [|constructor|reflexivity].
    + exists [ow d off buf]. split; [constructor|]. cbn. apply app_nil_r.
    + symmetry. now apply ow_len.
  - rewrite Hd. replace (zlen (getData fs) <? off) with false by lia. destruct (buf_read_ow (getData fs) off buf Ho) as [E1 E2].
    destruct (buf_read (zdrop off (getData fs)) buf) as [new buf']. cbn [fst snd] in *. rewrite E1, E2.
    set (data := option_map _ _).
    assert (Ed : obytes data = ow (getData fs) off buf).
    { unfold data, getData in *. destruct (d_data fs); cbn in *; [reflexivity|]. rewrite ow_past; [reflexivity|cbn; unfold zlen in *; cbn in *; lia]. }
    assert (Elen : zlen (obytes data) = zlen (getData fs)) by (rewrite Ed; now apply ow_len).
    assert (En : data = None <-> d_data fs = None) by (unfold data; destruct (d_data fs); cbn [option_map]; split; intros X; discriminate || reflexivity).
    destruct (leaf_encode b fs data Hd Elen En) as (b' & B1 & B2 & B3).
    rewrite B1. apply G.
    + exists [getData (set_data data fs)]. split; [|cbn [concat]; rewrite app_nil_r; unfold getData; cbn [set_data d_data]; exact Ed].
      eapply fd_leaf; [exact B2| | |]; cbn [set_data getType d_type d_blocksizes d_filesize]; auto.
      rewrite Hsz. f_equal. f_equal. symmetry. exact Elen.
    + econstructor; [exact Hd|exact B2|exact Elen| |exact En]. intros E. auto.
    + reflexivity.
Qed.

(** The loop over the children [ls], after those in [pre]. *)
Lemma set_link_at pre l ls k : set_link (length pre) k (pre ++ l :: ls) = pre ++ mkLink (lname l) (lsize l) k :: ls.
Proof. induction pre as [|x pre IH]; cbn; [reflexivity|]. now rewrite IH. Qed.
Lemma nth_error_at {A} pre (l : A) ls : nth_error (pre ++ l :: ls) (length pre) = Some l.
Proof. rewrite nth_error_app2, Nat.sub_diag by lia. reflexivity. Qed.

Definition link_like (l l' : link) : Prop := lname l = lname l' /\ lsize l = lsize l' /\ same_shape (lto l) (lto l').

Definition mlinks_post (pre ls : list link) (css : list (list bytes)) (off : Z) (buf : bytes) (w : world)
  (x : res unit * list link * bytes * world) : Prop :=
  let '(r, ls', buf', w') := x in
  wgrow w w' /\
  match r with
  | Ok _ => exists ls1 css1 a, ls' = pre ++ ls1 /\ Forall2 link_like ls ls1 /\ Forall2 file_dag (map lto ls1) css1 /\
      map csize css1 = map csize css /\
      concat (concat css1) = ow (concat (concat css)) off buf /\ buf' = zdrop (zlen (concat (concat css)) - off) buf /\
      w_added w' = w_added w ++ a /\
      forall l' m, In l' ls1 -> reach (lto l') m -> (exists l, In l ls /\ reach (lto l) m) \/ In m (map fst a)
  | Err _ => ~ (forall l, In l ls -> good_store w (lto l) /\ dserv_get w (lto l) = Ok (lto l))
  | Panic => False
  | Fuel => False
  end.

Lemma mod64_small z : 0 <= z < 9223372036854775808 -> mod64 z = z.
Proof. intros H. unfold mod64. apply Z.mod_small. lia. Qed.

Lemma modify_links_spec rec :
  forall ls css pre cur off buf w,
  (forall l cs o b w', In l ls -> file_dag (lto l) cs -> 0 <= o <= zlen (concat cs) -> zlen (concat cs) < 9223372036854775808 ->
     modify_post (lto l) cs o b w' (rec (lto l) o b w')) ->
  Forall2 file_dag (map lto ls) css -> Forall unnamed (pre ++ ls) ->
  0 <= cur <= off -> cur + zlen (concat (concat css)) < 9223372036854775808 -> off < 9223372036854775808 ->
  mlinks_post pre ls css (off - cur) buf w (modify_links rec (map csize css) (length pre) cur off (pre ++ ls) buf w).
Proof.
  induction ls as [|l ls IH]; intros css pre cur off buf w Hrec HF HU Hco Htot Hoff; inversion HF as [|? cs ? css' Hcs HF']; subst; cbn [map modify_links].
  - split; [apply wgrow_refl|]. exists [], [], []. cbn [concat]. split; [reflexivity|]. split; [constructor|]. split; [constructor|]. split; [reflexivity|].
    split; [|split; [|split; [now rewrite app_nil_r|intros l' m []]]].
    + unfold ow. rewrite ztake_nil, zdrop_nil, app_nil_r. cbn [app]. symmetry. apply ztake_neg. rewrite zlen_nil. lia.
    + now rewrite zdrop_neg by (rewrite zlen_nil; lia).
  - cbn [concat] in Htot. rewrite concat_app, zlen_app in Htot.
    pose proof (zlen_nonneg (concat cs)) as Hc0. pose proof (zlen_nonneg (concat (concat css'))) as Hc1.
    assert (Ecs : csize cs = zlen (concat cs)) by (apply mod64_small; lia). rewrite Ecs. rewrite u64_small by (unfold two64; lia).
    assert (Ec : concat (concat (cs :: css')) = concat cs ++ concat (concat css')) by (cbn [concat]; apply concat_app).
    assert (Hpre : forall x : link, (pre ++ [x]) ++ ls = pre ++ x :: ls) by (intros x; rewrite <- app_assoc; reflexivity).
    assert (Hplen : forall x : link, length (pre ++ [x]) = S (length pre)) by (intros x; rewrite app_length; cbn; lia).
    destruct (off <? cur + zlen (concat cs)) eqn:E.
    + rewrite nth_error_at. pose proof (get_cases w (lto l)) as Gc. destruct (dserv_get w (lto l)) as [c|e| |] eqn:Eg; try contradiction.
      2:{ split; [apply wgrow_refl|]. intros H. destruct (H l (or_introl eq_refl)) as [_ H1]. congruence. }
      subst c. rewrite u64_small by (unfold two64; lia).
      pose proof (Hrec l cs (off - cur) buf w (or_introl eq_refl) Hcs ltac:(lia) ltac:(lia)) as P.
      destruct (rec (lto l) (off - cur) buf w) as [[[k|e| |] buf'] w']; destruct P as [Pg P]; try contradiction.
      2:{ split; [exact Pg|]. intros H. apply P. apply H. now left. }
      rewrite set_link_at. destruct P as [(cs' & Pd1 & Pd2) Pb Ps (a & Pa1 & Pa2 & Pa3) Pse].
      set (l1 := mkLink (lname l) (lsize l) k).
      assert (HU1 : Forall unnamed ((pre ++ [l1]) ++ ls)).
      { rewrite <- app_assoc. cbn [app]. rewrite Forall_app in *. destruct HU as [HU1 HU2]. split; [assumption|]. inversion HU2; subst. constructor; assumption. }
      rewrite lsort_unnamed by (rewrite <- Hpre; exact HU1).
      assert (Hlen : csize cs' = csize cs) by (rewrite Pd2, ow_len' by lia; reflexivity).
      assert (Hb1 : forall m, reach (lto l1) m -> (exists l0, In l0 (l :: ls) /\ reach (lto l0) m) \/ In m (map fst a)).
      { cbn. intros m Hm. inversion Hm as [|? l2 ? Hl2 Hr2]; subst; [now right|].
        destruct (Pa3 l2 m Hl2 Hr2) as [(l3 & Hl3 & Hr3)|Hi]; [|now right]. left. exists l. split; [now left|]. eapply reach_link; eassumption. }
      destruct (zlen buf' =? 0) eqn:Eb.
      * split; [exact Pg|]. apply Z.eqb_eq, zlen_0_nil in Eb. exists (l1 :: ls), (cs' :: css'), a.
        split; [reflexivity|]. split; [constructor; [repeat split; assumption|clear; induction ls; constructor; [repeat split; apply same_shape_refl|assumption]]|].
        split; [constructor; assumption|]. split; [cbn [map]; now rewrite Hlen|]. rewrite Ec.
        split; [|split; [|split; [assumption|]]].
        -- cbn [concat]. rewrite concat_app, Pd2, ow_app by lia. f_equal. rewrite <- Pb, Eb. symmetry. apply ow_nil. lia.
        -- rewrite left_app by lia. rewrite <- Pb, Eb. now rewrite zdrop_nil.
        -- intros l' m [<-|Hl'] Hr; [auto|]. left. exists l'. split; [now right|assumption].
      * specialize (IH css' (pre ++ [l1]) (cur + zlen (concat cs)) (cur + zlen (concat cs)) buf' w').
        rewrite Hpre, Hplen, Z.sub_diag in IH.
        assert (IH' : mlinks_post (pre ++ [l1]) ls css' 0 buf' w' (modify_links rec (map csize css') (S (length pre)) (cur + zlen (concat cs)) (cur + zlen (concat cs)) (pre ++ l1 :: ls) buf' w')).
        { apply IH; auto; try lia; [intros; apply Hrec; auto; now right|rewrite <- Hpre; exact HU1]. }
        clear IH. destruct (modify_links _ _ _ _ _ _ _ _) as [[[r ls'] buf2] w2]. destruct IH' as [Ig IH']. split; [eapply wgrow_trans; eassumption|].
        destruct r as [u|e| |]; auto.
        -- destruct IH' as (ls1 & css1 & a1 & I1 & I2 & I3 & I4 & I5 & I6 & I7 & I8). exists (l1 :: ls1), (cs' :: css1), (a ++ a1).
           split; [rewrite I1, <- app_assoc; reflexivity|]. split; [constructor; [repeat split; assumption|assumption]|].
           split; [constructor; assumption|]. split; [cbn [map]; now rewrite Hlen, I4|]. rewrite Ec.
           split; [|split; [|split; [rewrite I7, Pa1, app_assoc; reflexivity|]]].
           ++ cbn [concat]. rewrite concat_app, Pd2, ow_app by lia. f_equal. rewrite I5, Pb. f_equal. lia.
           ++ rewrite left_app by lia. rewrite I6, Pb. f_equal. lia.
           ++ rewrite map_app. intros l' m [<-|Hl'] Hr; [destruct (Hb1 m Hr) as [H|H]; [now left|right; apply in_or_app; now left]|].
              destruct (I8 l' m Hl' Hr) as [(l0 & Hl0 & Hr0)|H]; [left; exists l0; split; [now right|assumption]|right; apply in_or_app; now right].
        -- intros H. apply IH'. intros l0 Hl0. destruct (H l0 (or_intror Hl0)) as [H1 H2]. split; [eapply wgrow_good; eassumption|eapply wgrow_get; eassumption].
    + specialize (IH css' (pre ++ [l]) (cur + zlen (concat cs)) off buf w). rewrite Hpre, Hplen in IH.
      assert (IH' : mlinks_post (pre ++ [l]) ls css' (off - (cur + zlen (concat cs))) buf w (modify_links rec (map csize css') (S (length pre)) (cur + zlen (concat cs)) off (pre ++ l :: ls) buf w)).
      { apply IH; auto; try lia. intros; apply Hrec; auto; now right. }
      clear IH. destruct (modify_links _ _ _ _ _ _ _ _) as [[[r ls'] buf2] w2]. destruct IH' as [Ig IH']. split; [exact Ig|].
      destruct r as [u|e| |]; auto.
      * destruct IH' as (ls1 & css1 & a1 & I1 & I2 & I3 & I4 & I5 & I6 & I7 & I8). exists (l :: ls1), (cs :: css1), a1.
        split; [rewrite I1, <- app_assoc; reflexivity|]. split; [constructor; [repeat split; apply same_shape_refl|assumption]|].
        split; [constructor; assumption|]. split; [cbn [map]; now rewrite I4|]. rewrite Ec.
        split; [|split; [|split; [assumption|]]].
        -- cbn [concat]. rewrite concat_app, ow_app by lia. rewrite ow_past by lia. f_equal. rewrite I5. rewrite zdrop_neg by lia. f_equal. lia.
        -- rewrite left_app by lia. rewrite (zdrop_neg (zlen (concat cs) - (off - cur))) by lia. rewrite I6. f_equal. lia.
        -- intros l' m [<-|Hl'] Hr; [left; exists l; split; [now left|assumption]|].
           destruct (I8 l' m Hl' Hr) as [(l0 & Hl0 & Hr0)|H]; [left; exists l0; split; [now right|assumption]|now right].
      * intros H. apply IH'. intros l0 Hl0. apply H. now right.
Qed.

Lemma link_like_names ls ls' : Forall2 link_like ls ls' -> map lname ls = map lname ls' /\ map lsize ls = map lsize ls' /\ Forall2 same_shape (map lto ls) (map lto ls').
Proof.
  induction 1 as [|l l' ls ls' (H1 & H2 & H3) HF (I1 & I2 & I3)]; cbn; [auto|]. split; [congruence|]. split; [congruence|]. now constructor.
Qed.

Lemma modifyDag_spec fuel : forall n cs off buf w, (height n <= fuel)%nat -> file_dag n cs -> zlen (concat cs) < 9223372036854775808 ->
  0 <= off <= zlen (concat cs) -> modify_post n cs off buf w (fst (modifyDag fuel n off buf w)).
Proof.
  induction fuel as [|fu IH]; intros n cs off buf w Hh Hf Hl Ho.
  - assert (El : node_links n = []) by (destruct n; [reflexivity|cbn in Hh; lia]).
    cbn [modifyDag]. rewrite El. cbn [fst]. now apply modify_leaf_spec.
  - destruct (node_links n) as [|l0 r0] eqn:El.
    { cbn [modifyDag]. rewrite El. cbn [fst]. now apply modify_leaf_spec. }
    destruct Hf as [p d|p b fs Hd Ht Hb Hs|p b fs ls css Hls Hu Hd Ht Hda HF Hb Hs]; try discriminate. cbn [node_links] in El.
    cbn [modifyDag node_links]. rewrite El, Hd. rewrite <- El. rewrite Hb.
    pose proof (modify_links_spec (fun c o bf ww => fst (modifyDag fu c o bf ww)) ls css [] 0 off buf w) as S. cbn [length app] in S.
    rewrite Z.sub_0_r in S.
    assert (S' : mlinks_post [] ls css off buf w (modify_links (fun c o bf ww => fst (modifyDag fu c o bf ww)) (map csize css) 0 0 off ls buf w)).
    { apply S; auto; try lia. intros l cs o bb w' Hin Hcs Hoo Hll. apply IH; auto. pose proof (height_child p b ls l Hin). lia. }
    clear S. unfold modify_post. destruct (modify_links _ _ _ _ _ _ _ _) as [[[r ls'] buf'] w'] eqn:Em. destruct S' as [Sg S'].
    destruct r as [u|e| |]; try contradiction; cbn [fst].
    + destruct S' as (ls1 & css1 & a & E1 & S2 & S3 & S4 & S5 & S6 & S7 & S8). cbn [app] in E1. subst ls'.
      pose proof (link_like_names _ _ S2) as (N1 & N2 & N3).
      assert (HU1 : Forall (fun l => lname l = []) ls1).
      { clear - Hu N1. revert ls1 N1. induction Hu as [|l ls Hl Hu IHu]; intros [|l1 ls1] N1; cbn in N1; try discriminate; constructor; [congruence|]. apply IHu. congruence. }
      assert (Hdag : file_dag (NProto p b ls1) (concat css1)).
      { eapply fd_node; eauto.
        - intros E. subst ls1. destruct ls; [congruence|discriminate].
        - rewrite Hb. symmetry. exact S4.
        - rewrite Hs. f_equal. rewrite S5, ow_len by lia. reflexivity. }
      assert (Hse : seal (NProto p b ls1) = NProto p b ls1) by (eapply file_dag_seal, Hdag).
      pose proof (add_cases (NProto p b ls1) w') as A. destruct (dserv_add (NProto p b ls1) None w') as [[u'|e| |] w2]; try destruct A as [A1 A2]; cbn [fst].
      * rewrite Hse in *. split; [eapply wgrow_trans; eassumption|]. constructor; auto.
        -- exists (concat css1). split; [exact Hdag|exact S5].
        -- constructor; assumption.
        -- exists (a ++ [(NProto p b ls1, None)]). split; [rewrite A1, S7, app_assoc; reflexivity|]. split; [rewrite map_app; apply in_or_app; right; now left|].
           intros l m Hin Hr. cbn [node_links] in *. destruct (S8 l m Hin Hr) as [H|H]; [now left|]. right. rewrite map_app. apply in_or_app. now left.
      * split; [eapply wgrow_trans; eassumption|]. intros (C & _). apply A1. eapply wgrow_can_add; eassumption.
      * destruct A.
      * destruct A.
    + split; [exact Sg|]. intros G. apply S'. intros l Hin. now apply (good_child w (NProto p b ls)).
Qed.
