(** Running the modifier: Sync, and sequences of calls. *)
From Verif Require Import Base Pb PbProofs FSNode FSNodeProofs Dag DagProofs Builder Trickle Importer Reader Modifier
  SpecFile SpecAppend SpecReader SpecModifier BuilderProofs TrickleProofs ImportProofs AppendProofs AppendRun ReaderProofs ReaderRun ReaderProofs2
  GrowProofs ModifierProofs TruncateProofs.

Notation K := DefaultLinksPerBlock.
Lemma K_pos : 1 <= K. Proof. vm_compute. discriminate. Qed.

Lemma height_weight n : (height n <= weight n)%nat.
Proof.
  induction n as [p d|p b ls IH] using DagProofs.node_ind'; [cbn; lia|]. rewrite weight_eq. cbn [height node_links].
  assert (fold_right (fun l h => Nat.max (height (lto l)) h) O ls <= sumw ls)%nat; [|lia].
  induction IH as [|l ls Hl HF IHf]; cbn; [lia|]. unfold sumw in *. lia.
Qed.

Lemma growable_appendable k n : 1 <= k -> growable k n -> appendable k n.
Proof.
  intros Hk. unfold growable. generalize (-1) as D. induction n as [p d|p d ls IH] using DagProofs.node_ind'; intros D H; apply loose_inv in H as (H1 & _ & _ & H4).
  - destruct H1 as (q & b & ls & f & E & _). discriminate.
  - destruct H1 as (q & b & ls' & f & E & Hq & Hf & Ht & Hd). injection E as <- <- <-.
    destruct ls as [|l ls _] using rev_ind; [eapply ap_empty; eauto|].
    apply ap_links. intros Hlt. rewrite Forall_app in IH. destruct IH as [_ IH]. inversion IH as [|? ? IHl _]; subst.
    eapply IHl. apply (H4 (length ls) l); [apply nth_error_last|].
    rewrite zlen_app, zlen_cons, zlen_nil in Hlt. unfold zlen in Hlt. lia.
Qed.

(** ** Blocks made from those of another file *)

Definition derived (w : world) (n : node) (w' : world) (n' : node) : Prop :=
  wgrow w w' /\ exists a, w_added w' = w_added w ++ a /\ blocks_from n n' a.

Lemma derived_refl w n : derived w n w n.
Proof. split; [apply wgrow_refl|]. exists []. split; [now rewrite app_nil_r|apply blocks_from_refl]. Qed.
Lemma derived_trans w0 n0 w1 n1 w2 n2 : derived w0 n0 w1 n1 -> derived w1 n1 w2 n2 -> derived w0 n0 w2 n2.
Proof.
  intros (G1 & a & A1 & B1) (G2 & b & A2 & B2). split; [eapply wgrow_trans; eassumption|]. exists (a ++ b).
  split; [rewrite A2, A1, app_assoc; reflexivity|]. eapply blocks_from_trans; eassumption.
Qed.
Lemma derived_good w n w' n' : derived w n w' n' -> good_store w n -> good_store w' n'.
Proof. intros (G & a & A & B) H. eapply good_from; eassumption. Qed.
Lemma derived_wgrow w n w' n' : derived w n w' n' -> wgrow w w'.
Proof. now intros (G & _). Qed.
Lemma derived_grow w n w' n' w2 : derived w n w' n' -> wgrow w' w2 -> derived w n w2 n'.
Proof.
  intros (G & a & A & B) G2. split; [eapply wgrow_trans; eassumption|]. destruct G2 as ((b & Eb) & _). exists (a ++ b).
  split; [rewrite Eb, A, app_assoc; reflexivity|]. intros l m Hl Hr. destruct (B l m Hl Hr) as [H|H]; [now left|right].
  rewrite map_app. apply in_or_app. now left.
Qed.

Lemma good_available w n : good_store w n -> stored w n = true -> available w n.
Proof.
  intros (_ & S & B) Hs m Hr. inversion Hr as [|? l ? Hl Hr']; subst; [|eapply B; eassumption]. apply get_iff. split; [exact Hs|apply S].
Qed.
Lemma available_below w n : available w n -> below_available w n.
Proof. intros H l m Hl Hr. apply H. eapply reach_link; eassumption. Qed.

(** ** Appending to the current node *)

Lemma zero_chunks_concat size : 0 <= size -> concat (zero_chunks size) = zeros size.
Proof.
  intros H. unfold zero_chunks, zeros. destruct (size <=? 0) eqn:E; [replace (Z.to_nat size) with O by lia; reflexivity|].
  assert (R : forall (a b : nat), repeat x00 a ++ repeat x00 b = repeat x00 (a + b)) by (intros; symmetry; apply repeat_app).
  assert (C : forall q, concat (repeat (repeat x00 (Z.to_nat 4096)) q) = repeat x00 (q * Z.to_nat 4096)).
  { induction q as [|q IH]; cbn [repeat concat]; [reflexivity|]. rewrite IH, R. f_equal. }
  rewrite concat_app, C. pose proof (Z.div_mod size 4096 ltac:(lia)) as Hdm. pose proof (Z.mod_pos_bound size 4096 ltac:(lia)) as Hm.
  assert (Hd : 0 <= size / 4096) by (apply Z.div_pos; lia).
  assert (Hq : (Z.to_nat (size / 4096) * Z.to_nat 4096)%nat = Z.to_nat (4096 * (size / 4096))) by (rewrite <- Z2Nat.inj_mul by lia; f_equal; lia).
  rewrite Hq. destruct (size mod 4096 =? 0) eqn:E2; cbn [concat]; rewrite ?app_nil_r.
  - f_equal. f_equal. lia.
  - unfold zeros. rewrite R. f_equal. lia.
Qed.

Lemma zero_chunks_small size : source_ok BlockSizeLimit (zero_chunks size).
Proof.
  unfold source_ok, zero_chunks. destruct (size <=? 0) eqn:E; [constructor|].
  pose proof (Z.mod_pos_bound size 4096 ltac:(lia)) as Hm. unfold BlockSizeLimit. apply Forall_app. split.
  - apply Forall_forall. intros x Hx. apply repeat_spec in Hx. subst x. unfold zeros. rewrite zlen_repeat. lia.
  - destruct (_ =? 0); constructor; [|constructor]. unfold zeros. rewrite zlen_repeat. lia.
Qed.

(** What a successful append makes of the current node. *)
Definition longer (w : world) (n : node) (w' : world) (n' : node) : Prop :=
  growable K n' /\ derived w n w' n' /\ node_prefix n' = node_prefix n /\ (tsizes_exact n -> tsizes_exact n').

Lemma change_none n n' m : m_read m = None -> m_change_node n n' m = m_set_node (Some n') m.
Proof. destruct m; cbn. now intros ->. Qed.

Lemma append_cur_spec m w n c chunks : m_node m = Some n -> file_content n c -> growable K n -> source_ok BlockSizeLimit chunks ->
  match append_cur chunks (m, w) with
  | (Ok n', (m', w')) => m' = m_change_node n n' m /\ file_content n' (c ++ concat chunks) /\ longer w n w' n'
  | (Err _, (m', w')) => ~ good_store w n
  | _ => False
  end.
Proof.
  intros Hn (cs & Hcs & ->) Hg Hs. unfold append_cur. cbn [fst snd]. rewrite Hn. unfold appendData.
  pose proof (trickle_append_grow (S (length chunks)) (weight n) (mkParams K (m_raw m) (Some (m_prefix m)) false) false (map EvData chunks) n w) as G.
  destruct (trickle_append _ _ _ _ _ _ _) as [[r n'] w'] eqn:E.
  assert (R := append_result (S (length chunks)) (weight n) (mkParams K (m_raw m) (Some (m_prefix m)) false) false (map EvData chunks) n w r n' w' cs K_pos ltac:(rewrite map_length; lia) (height_weight n) Hcs
    (growable_appendable K n K_pos Hg) E). cbn [snd] in G.
  destruct r as [root|e| |]; try contradiction.
  - destruct R as [[-> (ch & added & rcs & F)] _]. destruct F as (F1 & F2 & F3 & F4 & F5 & F6 & F7 & F8 & F9 & F10 & F11 & F12).
    apply map_EvData_inj in F1. subst ch. split; [reflexivity|]. split.
    + exists rcs. split; [exact F2|]. symmetry. exact F3.
    + split; [|split; [|split; assumption]].
      * apply F12; [auto|exact I|exact Hg].
      * split; [exact G|]. exists added. auto.
  - intros Hgood. apply R. split; [eauto|]. split; [discriminate|]. destruct Hgood as (? & ? & Hbe).
    split; [assumption|]. intros x Hx. destruct (edge_below _ _ _ Hx) as (l & Hl & Hr). exact (Hbe l x Hl Hr).
Qed.

Lemma mod_add_spec m w n : match mod_add n (m, w) with
  | (Ok _, (m', w')) => m' = m /\ wgrow w w' /\ w_added w' = w_added w ++ [(seal n, None)] /\ stored w' (seal n) = true
  | (Err _, (m', w')) => m' = m /\ wgrow w w' /\ ~ can_add w
  | _ => False
  end.
Proof.
  unfold mod_add. cbn [snd fst]. pose proof (add_cases n w) as A. destruct (dserv_add n None w) as [[u|e| |] w']; try contradiction; destruct A as [A1 A2].
  - split; [reflexivity|]. split; [exact A2|]. split; [exact A1|]. apply stored_added. rewrite A1, map_app. apply in_or_app. right. now left.
  - auto.
Qed.

Lemma content_seal n c : file_content n c -> seal n = n.
Proof. intros (cs & H & _). eapply file_dag_seal, H. Qed.

(** As [longer], with the new root in the store. *)
Definition replaced (w : world) (n : node) (w' : world) (n' : node) : Prop :=
  growable K n' /\ derived w n w' n' /\ stored w' n' = true /\ node_prefix n' = node_prefix n /\ (tsizes_exact n -> tsizes_exact n').

Lemma longer_added w n w1 n' w' : longer w n w1 n' -> wgrow w1 w' -> stored w' n' = true -> replaced w n w' n'.
Proof. intros (H1 & H2 & H3 & H4) G S. split; [exact H1|]. split; [eapply derived_grow; eassumption|]. auto. Qed.

Lemma expand_spec m w n c size : m_node m = Some n -> file_content n c -> growable K n -> 0 <= size ->
  match expandSparse size (m, w) with
  | (Ok _, (m', w')) => exists n', m' = m_change_node n n' m /\ file_content n' (c ++ zeros size) /\ replaced w n w' n'
  | (Err _, (m', w')) => ~ good_store w n
  | _ => False
  end.
Proof.
  intros Hn Hc Hg Hs. unfold expandSparse, bind. pose proof (append_cur_spec m w n c (zero_chunks size) Hn Hc Hg (zero_chunks_small size)) as A.
  destruct (append_cur (zero_chunks size) (m, w)) as [[n'|e| |] [m1 w1]]; try contradiction; [|exact A].
  destruct A as (-> & A2 & A3). rewrite zero_chunks_concat in A2 by assumption.
  pose proof (mod_add_spec (m_change_node n n' m) w1 n') as B. destruct (mod_add n' _) as [[u|e| |] [m2 w2]]; try contradiction.
  - destruct B as (-> & B1 & B2 & B3). rewrite (content_seal _ _ A2) in *. exists n'. split; [reflexivity|]. split; [exact A2|]. eapply longer_added; eassumption.
  - destruct B as (_ & _ & B). intros (C & _). apply B. eapply wgrow_can_add; [|exact C]. destruct A3 as (_ & A3 & _). eapply derived_wgrow, A3.
Qed.

Lemma pad_zeros c n : zlen c <= n -> c ++ zeros (n - zlen c) = pad c n.
Proof. reflexivity. Qed.

(** ** Sync *)

Section Run.
  Variable split : bytes -> list bytes.
  Variable wbsize : Z.
  Hypothesis split_ok : forall b, concat (split b) = b /\ source_ok BlockSizeLimit (split b).

  (** The result of writing [buf] back. *)
  Definition synced (m : modifier) (w : world) (n : node) (c buf : bytes) (m' : modifier) (w' : world) : Prop :=
    exists n', m' = mkMod (Some n') (m_start m + zlen buf) (m_off m) None (m_prefix m) (m_raw m) None /\
      file_content n' (put c (m_start m) buf) /\ derived w n w' n' /\ stored w' n' = true /\ node_prefix n' = node_prefix n /\
      (growable K n -> growable K n') /\
      (m_start m + zlen buf <= zlen c -> same_shape n n') /\
      (tsizes_exact n -> canonical_leaves n -> m_start m + zlen buf <= zlen c -> tsizes_exact n').

  Lemma shape_prefix n n' : same_shape n n' -> node_prefix n' = node_prefix n.
  Proof. now inversion 1. Qed.

  Lemma modify_cur_spec m w n c buf : m_node m = Some n -> file_content n c -> m_buf m = Some buf -> zlen c < 9223372036854775808 ->
    0 <= m_start m <= zlen c ->
    match modify_cur (m, w) with
    | (Ok k, (m', w')) => (exists x, m' = m_set_buf (Some (zdrop (zlen c - m_start m) buf)) (m_set_node (Some x) m)) /\
        file_content k (ow c (m_start m) buf) /\ same_shape n k /\ derived w n w' k /\ stored w' k = true
    | (Err _, (m', w')) => ~ good_store w n
    | _ => False
    end.
  Proof.
    intros Hn (cs & Hcs & ->) Hb Hl Hs. unfold modify_cur. cbn [fst snd]. rewrite Hn, Hb.
    pose proof (modifyDag_spec (weight n) n cs (m_start m) buf w (height_weight n) Hcs Hl Hs) as P.
    destruct (modifyDag _ _ _ _ _) as [[[r buf'] w'] x]. cbn [fst] in P. destruct P as [Pg P]. destruct r as [k|e| |]; try contradiction; [|exact P].
    destruct P as [(cs' & P1 & P2) P3 P4 (a & P5 & P6 & P7) P8]. split; [exists x; now rewrite P3|]. split; [exists cs'; auto|]. split; [exact P4|]. split.
    - split; [exact Pg|]. exists a. auto.
    - apply stored_added. rewrite P5, map_app. apply in_or_app. now right.
  Qed.

  Lemma get_cur_spec m w k : match get_cur k (m, w) with
    | (Ok _, (m', w')) => m' = m_set_node (Some k) m /\ w' = w
    | (Err _, (m', w')) => ~ (stored w k = true /\ serves w)
    | _ => False
    end.
  Proof. unfold get_cur. cbn [fst snd]. pose proof (get_cases w k) as G. destruct (dserv_get w k); try contradiction; [subst; auto|exact G]. Qed.

  Lemma m_set_node_eta m n : m_node m = Some n -> m_set_node (Some n) m = m.
  Proof. destruct m; cbn. intros ->. reflexivity. Qed.

  Lemma Sync_none m w : m_buf m = None -> Sync split (m, w) = (Ok tt, (m, w)).
  Proof. intros H. unfold Sync, bind, get_mod. cbn [fst]. now rewrite H. Qed.

  Lemma Sync_spec m w n c buf : m_node m = Some n -> file_content n c -> m_buf m = Some buf ->
    zlen c < 9223372036854775808 -> 0 <= m_start m -> m_start m + zlen buf < 9223372036854775808 ->
    (zlen c < m_start m + zlen buf -> growable K n) ->
    match Sync split (m, w) with
    | (Ok _, (m', w')) => synced m w n c buf m' w'
    | (Err _, (m', w')) => ~ good_store w n
    | _ => False
    end.
  Proof.
    intros Hn Hc Hb Hl Hs Hse Hg. pose proof (zlen_nonneg buf) as Hb0. pose proof (zlen_nonneg c) as Hc0.
    unfold Sync. unfold bind at 1, get_mod at 1. cbn [fst]. rewrite Hb. unfold bind at 1, upd_mod at 1. cbn [fst snd].
    set (m1 := m_set_read None m). unfold bind at 1, cur_node at 1. cbn [fst snd]. assert (Hn1 : m_node m1 = Some n) by exact Hn. rewrite Hn1.
    unfold bind at 1, lift at 1. destruct Hc as (cs & Hcs & Ec). assert (Hc : file_content n c) by (exists cs; auto).
    rewrite (fileSize_dag n cs Hcs) by (rewrite <- Ec; exact Hl). rewrite <- Ec.
    (* the file extended up to the start of the write *)
    unfold bind at 1.
    assert (E1 : match (if zlen c <? m_start m then expandSparse (i64 (m_start m - zlen c)) else ret tt) (m1, w) with
      | (Ok _, (m2, w2)) => exists n2, m2 = m_set_node (Some n2) m1 /\ file_content n2 (pad c (m_start m)) /\ derived w n w2 n2 /\ node_prefix n2 = node_prefix n /\
          (growable K n -> growable K n2) /\ (m_start m <= zlen c -> n2 = n)
      | (Err _, _) => ~ good_store w n
      | _ => False
      end).
    { destruct (zlen c <? m_start m) eqn:E.
      - rewrite i64_small by lia. pose proof (expand_spec m1 w n c (m_start m - zlen c) Hn1 Hc ltac:(apply Hg; lia) ltac:(lia)) as X.
        destruct (expandSparse _ _) as [[u|e| |] [m2 w2]]; try contradiction; [|exact X].
        destruct X as (n2 & X1 & X2 & X3 & X4 & X5 & X6 & X7). rewrite pad_zeros in X2 by lia. exists n2. split; [rewrite X1; now apply change_none|]. split; [exact X2|]. split; [exact X4|].
        split; [exact X6|]. split; [auto|lia].
      - cbn [ret]. exists n. rewrite m_set_node_eta by exact Hn1. rewrite pad_small by lia. split; [reflexivity|]. split; [exact Hc|].
        split; [apply derived_refl|]. auto. }
    destruct ((if zlen c <? m_start m then expandSparse (i64 (m_start m - zlen c)) else ret tt) (m1, w)) as [[u|e| |] [m2 w2]]; try contradiction; [|exact E1].
    destruct E1 as (n2 & -> & C2 & D2 & P2 & G2 & S2).
    assert (L2 : zlen (pad c (m_start m)) = Z.max (zlen c) (m_start m)) by apply pad_len.
    (* overwriting *)
    unfold bind at 1. set (m2 := m_set_node (Some n2) m1).
    pose proof (modify_cur_spec m2 w2 n2 (pad c (m_start m)) buf eq_refl C2 Hb ltac:(lia) ltac:(cbn; lia)) as E3.
    destruct (modify_cur (m2, w2)) as [[k|e| |] [m3 w3]]; try contradiction.
    2:{ intros G. apply E3. eapply derived_good; eassumption. }
    destruct E3 as ((x & ->) & C3 & Sh3 & D3 & St3). cbn [m_start m2 m_set_node m1 m_set_read] in *.
    set (m3 := m_set_buf _ _).
    unfold bind at 1. pose proof (get_cur_spec m3 w3 k) as E4. destruct (get_cur k (m3, w3)) as [[u4|e| |] [m4 w4]]; try contradiction.
    2:{ intros G. apply E4. split; [exact St3|]. eapply derived_good in D2; [|exact G]. eapply wgrow_serves; [eapply derived_wgrow, D3|]. apply D2. }
    destruct E4 as [-> ->]. unfold bind at 1, get_mod at 1. cbn [fst].
    assert (D03 : derived w n w3 k) by (eapply derived_trans; eassumption).
    assert (Gk : growable K n -> growable K k) by (intros Hg'; eapply growable_shape; [exact Sh3|]; apply G2; exact Hg').
    set (left := zdrop (zlen (pad c (m_start m)) - m_start m) buf) in *.
    assert (Eput : put c (m_start m) buf = ow (pad c (m_start m)) (m_start m) buf ++ left).
    { rewrite <- put_pad. apply put_ow. lia. }
    assert (Lend : m_start m + zlen buf <= zlen c -> left = []).
    { intros Hle. unfold left. apply zdrop_all. lia. }
    assert (Ein : m_start m + zlen buf <= zlen c -> same_shape n k).
    { intros Hle. rewrite (S2 ltac:(lia)) in Sh3. exact Sh3. }
    cbn [m_set_node m_buf m3 m_set_buf]. unfold bind at 1.
    assert (E5 : match (match left with
         | [] => ret tt
         | _ :: _ => do nn <- append_buf split left ;; mod_add nn end) (m_set_node (Some k) m3, w3) with
      | (Ok _, (m5, w5)) => exists n5, m5 = m_set_buf (Some []) (m_set_node (Some n5) m3) /\ file_content n5 (put c (m_start m) buf) /\ derived w n w5 n5 /\
            stored w5 n5 = true /\ node_prefix n5 = node_prefix n /\ (growable K n -> growable K n5) /\ (m_start m + zlen buf <= zlen c -> n5 = k)
      | (Err _, _) => ~ good_store w n
      | _ => False
      end).
    { destruct left as [|x0 r0] eqn:El.
      - cbn [ret]. exists k. split; [unfold m3; destruct m; reflexivity|]. rewrite Eput, app_nil_r. split; [exact C3|]. split; [exact D03|]. split; [exact St3|].
        split; [rewrite (shape_prefix _ _ Sh3); exact P2|]. auto.
      - rewrite <- El in *. assert (Hg' : growable K n).
        { apply Hg. destruct (Z_lt_ge_dec (zlen c) (m_start m + zlen buf)) as [H|H]; [exact H|]. rewrite (Lend ltac:(lia)) in El. discriminate. }
        unfold bind at 1, append_buf at 1.
        pose proof (append_cur_spec (m_set_node (Some k) m3) w3 k _ (split left) eq_refl C3 (Gk Hg') (proj2 (split_ok left))) as A.
        destruct (append_cur (split left) (m_set_node (Some k) m3, w3)) as [[n5|e| |] [m5 w5]]; try contradiction.
        2:{ intros G. apply A. eapply derived_good; eassumption. }
        destruct A as (-> & A2 & A3). rewrite change_none in * by reflexivity. rewrite (proj1 (split_ok left)), <- Eput in A2.
        match goal with |- context [mod_add n5 (?mm, w5)] => pose proof (mod_add_spec mm w5 n5) as B; destruct (mod_add n5 (mm, w5)) as [[u6|e| |] [m6 w6]] end; try contradiction.
        + destruct B as (-> & B1 & B2 & B3). rewrite (content_seal _ _ A2) in *. exists n5. split; [unfold m3; destruct m; reflexivity|]. split; [exact A2|].
          destruct A3 as (A3 & A4 & A5 & A6). split; [eapply derived_trans; [exact D03|]; eapply derived_grow; eassumption|]. split; [exact B3|].
          split; [rewrite A5, (shape_prefix _ _ Sh3); exact P2|]. split; [auto|]. intros Hle. rewrite (Lend Hle) in El. discriminate.
        + destruct B as (_ & _ & B). intros (C & _). apply B. destruct A3 as (_ & A3 & _). eapply wgrow_can_add; [|exact C]. eapply wgrow_trans; [eapply derived_wgrow, D03|eapply derived_wgrow, A3]. }
    replace (match left with [] => ret tt | b :: l => do nn <- append_buf split (b :: l);; mod_add nn end)
      with (match left with [] => ret tt | _ :: _ => do nn <- append_buf split left;; mod_add nn end) by now destruct left.
    destruct ((match left with [] => ret tt | _ :: _ => do nn <- append_buf split left;; mod_add nn end) (m_set_node (Some k) m3, w3)) as [[u5|e| |] [m5 w5]]; try contradiction; [|exact E5].
    destruct E5 as (n5 & -> & C5 & D5 & St5 & P5 & G5 & K5).
    unfold upd_mod. cbn [fst snd]. exists n5. split.
    { unfold m3, m2, m1. destruct m. cbn in *. rewrite u64_small by (unfold two64; lia). reflexivity. }
    split; [exact C5|]. split; [exact D5|]. split; [exact St5|]. split; [exact P5|]. split; [exact G5|]. split.
    - intros Hle. rewrite (K5 Hle). auto.
    - intros Ht Hcl Hle. rewrite (K5 Hle). eapply tsizes_shape; [apply Ein, Hle|exact Hcl|exact Ht].
  Qed.

  (** ** The modifier as a file *)

  Definition buf_len (m : modifier) : Z := match m_buf m with Some b => zlen b | None => 0 end.

  Record minv (st : fstate) (m : modifier) (w : world) : Prop := {
    mi_file : exists n c0, m_node m = Some n /\ file_content n c0 /\ growable K n /\ available w n /\ zlen c0 < 9223372036854775808 /\
      f_content st = match m_buf m with Some b => put c0 (m_start m) b | None => c0 end;
    mi_add : can_add w;
    mi_serves : serves w;
    mi_off : m_off m = f_pos st;
    mi_pos : 0 <= f_pos st < 9223372036854775808;
    mi_start : 0 <= m_start m;
    mi_end : m_start m + buf_len m < 9223372036854775808;
    mi_moved : f_moved st = false -> m_off m = m_start m + buf_len m;
    mi_clean : f_clean st = true -> m_buf m = None;
    mi_read : forall r, m_read m = Some r -> f_reader st <> NoReader /\ m_buf m = None /\
      m_node m = Some (r_root r) /\ r_off r = f_pos st /\
      (f_reader st <> Stale -> reader_at (f_content st) (f_pos st) r) /\ (f_reader st = Current -> r_size r = zlen (f_content st))
  }.

  Lemma put_length c o b : 0 <= o -> zlen (put c o b) = Z.max (zlen c) (o + zlen b).
  Proof using. clear split_ok split.
    intros H. unfold put. rewrite !zlen_app. rewrite zlen_ztake by (rewrite pad_len; lia).
    pose proof (zlen_nonneg b). pose proof (zlen_nonneg c). unfold zlen, zdrop in *. rewrite skipn_length. lia.
  Qed.

  Lemma minv_len st m w : minv st m w -> zlen (f_content st) < 9223372036854775808.
  Proof.
    intros H. destruct (mi_file _ _ _ H) as (n & c0 & _ & _ & _ & _ & Hl & ->). pose proof (mi_end _ _ _ H) as He. pose proof (mi_start _ _ _ H) as Hs.
    unfold buf_len in He. destruct (m_buf m); [|exact Hl]. rewrite put_length by assumption. lia.
  Qed.

  Definition cleaned (st : fstate) : fstate := mkF (f_content st) (f_pos st) (f_moved st) (f_reader st) true.

  Lemma good_of st m w n : minv st m w -> available w n -> good_store w n.
  Proof. intros H A. split; [apply H|]. split; [apply H|]. now apply available_below. Qed.

  Lemma minv_Sync st m w : minv st m w -> exists m' w', Sync split (m, w) = (Ok tt, (m', w')) /\ minv (cleaned st) m' w'.
  Proof.
    intros H. pose proof (mi_end _ _ _ H) as He. unfold buf_len in He. destruct (mi_file _ _ _ H) as (n & c0 & Hn & Hc & Hg & Ha & Hl & Ec).
    destruct (m_buf m) as [buf|] eqn:Eb.
    - pose proof (good_of _ _ _ _ H Ha) as Gs.
      pose proof (Sync_spec m w n c0 buf Hn Hc Eb Hl (mi_start _ _ _ H) He (fun _ => Hg)) as S.
      destruct (Sync split (m, w)) as [[[]|e| |] [m' w']]; try contradiction. exists m', w'. split; [reflexivity|].
      destruct S as (n' & -> & S1 & S2 & S3 & S4 & S5 & _). pose proof (derived_good _ _ _ _ S2 Gs) as G'.
      constructor; cbn [cleaned f_content f_pos f_moved f_reader f_clean m_node m_off m_start m_buf m_read buf_len].
      + exists n', (put c0 (m_start m) buf). split; [reflexivity|]. split; [exact S1|]. split; [auto|]. split; [now apply good_available|].
        split; [rewrite put_length by apply H; lia|exact Ec].
      + apply G'.
      + apply G'.
      + apply H.
      + apply H.
      + pose proof (mi_start _ _ _ H). pose proof (zlen_nonneg buf). lia.
      + unfold buf_len. cbn [m_buf]. lia.
      + unfold buf_len. cbn [m_buf]. intros Hm. rewrite (mi_moved _ _ _ H Hm). unfold buf_len. rewrite Eb. lia.
      + reflexivity.
      + discriminate.
    - rewrite Sync_none by assumption. exists m, w. split; [reflexivity|]. destruct H as [H1 H2 H3 H4 H5 H6 H7 H8 H9 H10]. constructor; cbn; auto.
  Qed.

  (** With nothing buffered the current node is the file. *)
  Lemma minv_node st m w : minv st m w -> f_clean st = true -> exists n, m_node m = Some n /\ file_content n (f_content st) /\ growable K n /\ available w n.
  Proof.
    intros H Hc. destruct (mi_file _ _ _ H) as (n & c0 & Hn & Hf & Hg & Ha & Hl & Ec). rewrite (mi_clean _ _ _ H Hc) in Ec. subst c0. eauto 6.
  Qed.

  Lemma minv_Size st m w : minv st m w -> mSize (m, w) = (Ok (zlen (f_content st)), (m, w)).
  Proof.
    intros H. destruct (mi_file _ _ _ H) as (n & c0 & Hn & (cs & Hcs & ->) & Hg & Ha & Hl & Ec). pose proof (mi_end _ _ _ H) as He. pose proof (mi_start _ _ _ H) as Hs.
    unfold buf_len in He. pose proof (zlen_nonneg (concat cs)) as H0.
    unfold mSize, bind, cur_node, lift, get_mod. cbn [fst snd]. rewrite Hn, (fileSize_dag n cs Hcs Hl). rewrite (i64_small (zlen (concat cs))) by lia. cbn [fst snd].
    destruct (m_buf m) as [buf|]; unfold ret.
    - pose proof (zlen_nonneg buf) as Hb0. cbv zeta. rewrite (i64_small (zlen buf)), (i64_small (m_start m)), i64_small by lia. rewrite Ec, put_length by assumption.
      destruct (_ <? _) eqn:E; do 2 f_equal; lia.
    - now rewrite Ec.
  Qed.

  Lemma put_put c o a b : 0 <= o -> put (put c o a) (o + zlen a) b = put c o (a ++ b).
  Proof using. clear split_ok split.
    intros H. pose proof (zlen_nonneg a) as Ha. pose proof (zlen_nonneg b) as Hb.
    unfold put at 1. rewrite pad_small by (rewrite put_length by assumption; lia).
    assert (E : put c o a = (ztake o (pad c o) ++ a) ++ zdrop (o + zlen a) c) by (unfold put; now rewrite app_assoc). rewrite E.
    assert (L : zlen (ztake o (pad c o) ++ a) = o + zlen a) by (rewrite zlen_app, zlen_ztake by (rewrite pad_len; lia); lia).
    rewrite ztake_app_l, ztake_all by lia. rewrite zdrop_app_r by lia. rewrite L. unfold put. rewrite <- !app_assoc. f_equal. f_equal. f_equal.
    rewrite zdrop_zdrop by lia. f_equal. rewrite zlen_app. lia.
  Qed.

  (** Writing at the place where the next Write goes. *)
  Lemma minv_Write st m w b : minv st m w -> m_start m + buf_len m + zlen b < 9223372036854775808 -> f_pos st + zlen b < 9223372036854775808 ->
    exists m' w', mWrite split wbsize b (m, w) = (Ok (zlen b), (m', w')) /\
      minv (mkF (put (f_content st) (m_start m + buf_len m) b) (f_pos st + zlen b) (negb (m_off m =? m_start m + buf_len m)) NoReader false) m' w'.
  Proof.
    intros H He Hp. pose proof (zlen_nonneg b) as Hb0. pose proof (mi_pos _ _ _ H) as Hpos. pose proof (mi_start _ _ _ H) as Hs.
    unfold mWrite. unfold bind at 1, upd_mod at 1. cbn [fst snd].
    set (m1 := m_set_off _ _). unfold bind at 1, get_mod at 1. cbn [fst]. set (st1 := mkF _ _ _ _ _).
    set (old := match m_buf m with Some x => x | None => [] end). assert (Eb : m_buf m1 = Some (old ++ b)) by reflexivity.
    assert (Hlen : zlen old = buf_len m) by (unfold old, buf_len; now destruct (m_buf m)).
    assert (H1 : minv st1 m1 w).
    { destruct (mi_file _ _ _ H) as (n & c0 & Hn & Hf & Hg & Ha & Hl & Ec).
      constructor; cbn [st1 f_content f_pos f_moved f_reader f_clean].
      - exists n, c0. split; [exact Hn|]. split; [exact Hf|]. split; [exact Hg|]. split; [exact Ha|]. split; [exact Hl|].
        rewrite Eb. change (m_start m1) with (m_start m). rewrite Ec. unfold old, buf_len in *. destruct (m_buf m) as [x|].
        + now apply put_put.
        + now rewrite Z.add_0_r.
      - apply H.
      - apply H.
      - change (m_off m1) with (u64 (m_off m + zlen b)). rewrite (mi_off _ _ _ H). apply u64_small. unfold two64. lia.
      - lia.
      - exact Hs.
      - unfold buf_len. rewrite Eb, zlen_app, Hlen. change (m_start m1) with (m_start m). lia.
      - intros Hm. unfold buf_len. rewrite Eb, zlen_app, Hlen. change (m_start m1) with (m_start m).
        change (m_off m1) with (u64 (m_off m + zlen b)). rewrite (mi_off _ _ _ H) in *. rewrite u64_small by (unfold two64; lia). lia.
      - discriminate.
      - discriminate. }
    rewrite Eb. unfold bind at 1. destruct (wbsize <? zlen (old ++ b)).
    - destruct (minv_Sync st1 m1 w H1) as (m' & w' & -> & H'). exists m', w'. split; [reflexivity|].
      destruct H' as [A1 A2 A3 A4 A5 A6 A7 A8 A9 A10]. constructor; cbn in *; auto; try discriminate.
    - cbn [ret]. exists m1, w. split; [reflexivity|exact H1].
  Qed.

  Lemma zeros_pad c n : 0 <= n - zlen c -> c ++ zeros (n - zlen c) = pad c n.
  Proof. reflexivity. Qed.

  (** The current node is changed in place: a reader keeps its offset and has the new root. *)
  Lemma change_read n n' m r' : m_read (m_change_node n n' m) = Some r' -> (forall r, m_read m = Some r -> m_node m = Some (r_root r)) -> m_node m = Some n ->
    exists r, m_read m = Some r /\ r_root r' = n' /\ r_off r' = r_off r.
  Proof using. clear split_ok split.
    intros H Hr Hn. cbn [m_change_node m_set_node m_set_read m_read] in H. destruct (m_read m) as [r|]; [|discriminate]. cbn [option_map] in H.
    specialize (Hr r eq_refl). rewrite Hn in Hr. injection Hr as ->. rewrite node_eqb_refl in H. injection H as <-. exists r. auto.
  Qed.
  Lemma outdated_mode r : r <> NoReader -> outdated r = Stale.
  Proof using. now destruct r. Qed.

  (** Extending the file with zeros. *)
  Lemma minv_expand st m w n : minv st m w -> f_clean st = true -> zlen (f_content st) < n < 9223372036854775808 ->
    exists m' w', expandSparse (i64 (n - zlen (f_content st))) (m, w) = (Ok tt, (m', w')) /\ m_buf m' = None /\ m_off m' = m_off m /\
      minv (mkF (pad (f_content st) n) (f_pos st) (f_moved st) (outdated (f_reader st)) true) m' w'.
  Proof.
    intros H Hc Hn. destruct (minv_node _ _ _ H Hc) as (x & Hx & Hf & Hg & Ha). pose proof (zlen_nonneg (f_content st)) as H0.
    rewrite i64_small by lia. pose proof (expand_spec m w x (f_content st) (n - zlen (f_content st)) Hx Hf Hg ltac:(lia)) as E.
    pose proof (good_of _ _ _ _ H Ha) as Gs.
    destruct (expandSparse _ _) as [[[]|e| |] [m' w']]; try contradiction. destruct E as (n' & -> & E1 & E2 & E3 & E4 & E5 & E6).
    rewrite zeros_pad in E1 by lia. exists (m_change_node x n' m), w'. split; [reflexivity|]. split; [exact (mi_clean _ _ _ H Hc)|]. split; [reflexivity|].
    pose proof (derived_good _ _ _ _ E3 Gs) as G'.
    destruct H as [A1 A2 A3 A4 A5 A6 A7 A8 A9 A10]. constructor; cbn [f_content f_pos f_moved f_reader f_clean]; auto.
    - exists n', (pad (f_content st) n). split; [reflexivity|]. split; [exact E1|]. split; [exact E2|]. split; [now apply good_available|].
      split; [rewrite pad_len; lia|]. change (m_buf (m_change_node x n' m)) with (m_buf m). now rewrite (A9 Hc).
    - apply G'.
    - apply G'.
    - intros r Hr. apply change_read in Hr; [|intros r0 Hr0; apply (A10 r0 Hr0)|exact Hx]. destruct Hr as (r0 & Hr0 & R1 & R2).
      destruct (A10 r0 Hr0) as (B1 & B2 & B3 & B4 & _). rewrite (outdated_mode _ B1). split; [discriminate|]. split; [exact B2|].
      split; [rewrite R1; reflexivity|]. split; [now rewrite R2|]. split; [congruence|discriminate].
  Qed.

  Lemma m_set_read_eta m : m_read m = None -> m_set_read None m = m.
  Proof. destruct m; cbn. intros ->. reflexivity. Qed.
  Lemma minv_close st m w rd : minv st m w -> minv (mkF (f_content st) (f_pos st) (f_moved st) rd (f_clean st)) (m_set_read None m) w.
  Proof.
    intros [A1 A2 A3 A4 A5 A6 A7 A8 A9 A10]. constructor; cbn [f_content f_pos f_moved f_reader f_clean m_set_read m_node m_buf m_off m_start m_read buf_len] in *; auto. discriminate.
  Qed.

  (** ** Calls *)

  Definition mod_step (op : mop) (s : mst) : option (mobs * mst) :=
    match op with
    | MWrite b => match mWrite split wbsize b s with (Ok z, s') => Some (BInt z, s') | _ => None end
    | MWriteAt b off => match WriteAt split wbsize b off s with (Ok z, s') => Some (BInt z, s') | _ => None end
    | MSeek off wh => match mSeek split off wh s with (Ok z, s') => Some (BInt z, s') | _ => None end
    | MTruncate n => match mTruncate split n s with (Ok _, s') => Some (BDone, s') | _ => None end
    | MRead k => match mRead split k s with (Ok (b, e), s') => Some (BData b e, s') | _ => None end
    | MSize => match mSize s with (Ok z, s') => Some (BInt z, s') | _ => None end
    | MSync => match Sync split s with (Ok _, s') => Some (BDone, s') | _ => None end
    | MGetNode => match mGetNode split s with (Ok n, s') => Some (BNode n, s') | _ => None end
    end.

  Fixpoint mod_run (ops : list mop) (s : mst) : option (list (mop * mobs * world) * mst) :=
    match ops with
    | [] => Some ([], s)
    | op :: r =>
        match mod_step op s with
        | None => None
        | Some (o, s1) =>
            match mod_run r s1 with
            | None => None
            | Some (h, s2) => Some ((op, o, snd s1) :: h, s2)
            end
        end
    end.

  Definition step_ok (st : fstate) (op : mop) (s : mst) : Prop :=
    exists o m' w', mod_step op s = Some (o, (m', w')) /\ m_answer w' st op o /\ minv (m_next st op) m' w'.

  Lemma step_Write st m w b : minv st m w -> m_allowed st (MWrite b) -> step_ok st (MWrite b) (m, w).
  Proof.
    intros H [Hm Hp]. pose proof (mi_moved _ _ _ H Hm) as Eo. rewrite (mi_off _ _ _ H) in Eo. cbn in Hm, Hp.
    destruct (minv_Write st m w b H ltac:(lia) Hp) as (m' & w' & E & H'). exists (BInt (zlen b)), m', w'. cbn [mod_step]. rewrite E.
    split; [reflexivity|]. split; [reflexivity|]. destruct st as [c pos mv rd cl]. cbn [m_next f_content f_pos] in *. rewrite (mi_off _ _ _ H) in H'. cbn [f_pos] in H'.
    rewrite <- Eo, Z.eqb_refl in H'. exact H'.
  Qed.

  Lemma step_Size st m w : minv st m w -> step_ok st MSize (m, w).
  Proof.
    intros H. exists (BInt (zlen (f_content st))), m, w. cbn [mod_step]. rewrite (minv_Size _ _ _ H). split; [reflexivity|]. split; [reflexivity|]. now destruct st.
  Qed.
  Lemma step_Sync st m w : minv st m w -> step_ok st MSync (m, w).
  Proof.
    intros H. destruct (minv_Sync _ _ _ H) as (m' & w' & E & H'). exists BDone, m', w'. cbn [mod_step]. rewrite E. split; [reflexivity|]. split; [reflexivity|]. now destruct st.
  Qed.
  Lemma step_GetNode st m w : minv st m w -> step_ok st MGetNode (m, w).
  Proof.
    intros H. destruct (minv_Sync _ _ _ H) as (m' & w' & E & H'). destruct (minv_node _ _ _ H' eq_refl) as (n & Hn & Hf & _ & Ha).
    exists (BNode n), m', w'. cbn [mod_step]. unfold mGetNode, bind. rewrite E. cbn [fst]. rewrite Hn. split; [reflexivity|].
    split; [exists n; auto|]. now destruct st.
  Qed.

  Lemma minv_ext st st' m w : minv st m w -> f_content st = f_content st' -> f_pos st = f_pos st' -> f_moved st = f_moved st' -> f_reader st = f_reader st' ->
    (f_clean st' = true -> m_buf m = None) -> minv st' m w.
  Proof.
    intros [A1 A2 A3 A4 A5 A6 A7 A8 A9 A10] E1 E2 E3 E4 Hc. constructor; try rewrite <- E1; try rewrite <- E2; try rewrite <- E3; try rewrite <- E4; auto.
  Qed.

  Lemma step_Truncate st m w n : minv st m w -> m_allowed st (MTruncate n) -> step_ok st (MTruncate n) (m, w).
  Proof.
    intros H Hn. cbn [m_allowed] in Hn. destruct (minv_Sync _ _ _ H) as (m1 & w1 & E & H1). cbn [mod_step].
    unfold step_ok. cbn [mod_step]. unfold mTruncate, bind. rewrite E. rewrite (minv_Size _ _ _ H1). cbn [cleaned f_content].
    pose proof (minv_len _ _ _ H) as Hl. pose proof (zlen_nonneg (f_content st)) as H0.
    assert (Enext : m_next st (MTruncate n) = mkF (resize (f_content st) n) (f_pos st) (f_moved st) (if n =? zlen (f_content st) then f_reader st else outdated (f_reader st)) true) by now destruct st.
    rewrite Enext. destruct (n =? zlen (f_content st)) eqn:E1.
    - exists BDone, m1, w1. cbn [ret]. split; [reflexivity|]. split; [reflexivity|]. apply Z.eqb_eq in E1. subst n. unfold resize. rewrite pad_small, ztake_all by lia. exact H1.
    - destruct (zlen (f_content st) <? n) eqn:E2.
      + destruct (minv_expand (cleaned st) m1 w1 n H1 eq_refl ltac:(cbn; lia)) as (m2 & w2 & X1 & X2 & X3 & X4). cbn [cleaned f_content] in X1. rewrite X1.
        exists BDone, m2, w2. split; [reflexivity|]. split; [reflexivity|]. cbn [cleaned f_content f_pos f_moved f_reader] in X4.
        unfold resize. rewrite ztake_all by (rewrite pad_len; lia). exact X4.
      + destruct (minv_node _ _ _ H1 eq_refl) as (x & Hx & Hf & Hg & Ha). cbn [cleaned f_content] in Hf. pose proof (good_of _ _ _ _ H1 Ha) as Gs.
        destruct Hf as (cs & Hcs & Ec).
        unfold truncate_cur. cbn [fst snd]. rewrite Hx. rewrite u64_small by (unfold two64; lia).
        pose proof (dagTruncate_spec (weight x) x cs n w1 (height_weight x) Hcs ltac:(rewrite <- Ec; lia) ltac:(rewrite <- Ec; lia)) as T.
        destruct (dagTruncate (weight x) x n w1) as [[nn|e| |] w2]; destruct T as [Tg T]; cbn [fst snd] in *; try contradiction.
        destruct (tr_dag _ _ _ _ _ _ T) as (cs' & T1 & T2). destruct (tr_added _ _ _ _ _ _ T) as (a & T3 & T4).
        match goal with |- context [mod_add nn (?mm, w2)] => pose proof (mod_add_spec mm w2 nn) as B; destruct (mod_add nn (mm, w2)) as [[u6|e| |] [m6 w6]] end; try contradiction.
        2:{ destruct B as (_ & _ & B). exfalso. apply B. eapply wgrow_can_add; [exact Tg|apply Gs]. }
        destruct B as (Em & B1 & B2 & B3). assert (Es : seal nn = nn) by (eapply file_dag_seal, T1). rewrite Es in *.
        exists BDone, (m_change_node x nn m1), w6. split.
        { unfold upd_mod. cbn [fst snd]. rewrite Em. destruct x; [exfalso; inversion Hg as [? ? (? & ? & ? & ? & Hi & _)]; discriminate|reflexivity]. }
        split; [reflexivity|].
        assert (D : derived w1 x w6 nn) by (eapply derived_grow; [split; [exact Tg|exists a; auto]|exact B1]).
        pose proof (derived_good _ _ _ _ D Gs) as G'.
        assert (Ec' : concat cs' = resize (f_content st) n) by (rewrite T2, <- Ec; unfold resize; now rewrite pad_small by lia).
        destruct H1 as [A1 A2 A3 A4 A5 A6 A7 A8 A9 A10]. constructor; cbn [f_content f_pos f_moved f_reader f_clean cleaned] in *; auto.
        * exists nn, (resize (f_content st) n). split; [reflexivity|]. split; [exists cs'; auto|].
          split; [apply (tr_loose _ _ _ _ _ _ T), Hg|]. split; [now apply good_available|].
          split; [rewrite <- Ec', T2, <- Ec, zlen_ztake by lia; lia|]. change (m_buf (m_change_node x nn m1)) with (m_buf m1). rewrite (A9 eq_refl). reflexivity.
        * apply G'.
        * apply G'.
        * intros r Hr. apply change_read in Hr; [|intros r0 Hr0; apply (A10 r0 Hr0)|exact Hx]. destruct Hr as (r0 & Hr0 & R1 & R2).
          destruct (A10 r0 Hr0) as (C1 & C2 & C3 & C4 & _). rewrite (outdated_mode _ C1). split; [discriminate|]. split; [exact C2|].
          split; [rewrite R1; reflexivity|]. split; [now rewrite R2|]. split; [congruence|discriminate].
  Qed.

  (** Seek on a reader whose root is the file; where it was before matters only if it
      does not move. *)
  Lemma seek_any w content o wh r t : file_content (r_root r) content -> zlen content < 9223372036854775808 -> below_available w (r_root r) ->
    (wh = 0 /\ t = o \/ wh = 1 /\ t = r_off r + o \/ wh = 2 /\ t = r_size r + o) -> 0 <= r_size r < 9223372036854775808 \/ wh <> 2 -> 0 <= t < 9223372036854775808 ->
    exists r', Seek w o wh r = (t, Ok tt, r') /\ r_root r' = r_root r /\ r_size r' = r_size r /\ r_off r' = t /\
      (t <> r_off r \/ reader_at content (r_off r) r -> reader_at content t r').
  Proof using. clear split_ok split.
    intros Hf Hl Hb Hwh Hsz Ht.
    assert (S : exists r', seek_start w t r = (t, Ok tt, r') /\ r_root r' = r_root r /\ r_size r' = r_size r /\ r_off r' = t /\
      (t <> r_off r \/ reader_at content (r_off r) r -> reader_at content t r')).
    { destruct (Z.eq_dec t (r_off r)) as [E|E].
      - unfold seek_start. rewrite <- E, Z.eqb_refl. replace (t <? 0) with false by lia. exists r. split; [reflexivity|]. split; [reflexivity|]. split; [reflexivity|].
        split; [auto|]. intros [H|H]; [lia|exact H].
      - pose proof (seek_start_spec w t r content Hf Hl (proj1 Ht) E) as S. destruct (seek_start w t r) as [[z e] r']. destruct S as (S1 & S2 & S3).
        destruct e as [[]|e| |]; try contradiction; [|destruct S3; contradiction]. destruct S3 as [-> S3]. exists r'. split; [reflexivity|]. split; [exact S1|].
        split; [exact S2|]. split; [exact (ra_off _ _ _ S3)|]. auto. }
    unfold Seek. destruct Hwh as [[-> E]|[[-> E]|[-> E]]].
    - change (0 =? 0) with true. cbv iota. rewrite <- E. exact S.
    - change (1 =? 0) with false. change (1 =? 1) with true. cbv iota. destruct (o =? 0) eqn:E0.
      + assert (o = 0) by lia. subst o. rewrite Z.add_0_r in E. exists r. rewrite E. split; [reflexivity|]. split; [reflexivity|]. split; [reflexivity|]. split; [reflexivity|].
        intros [H|H]; [lia|exact H].
      + rewrite <- E. rewrite i64_small by lia. exact S.
    - change (2 =? 0) with false. change (2 =? 1) with false. change (2 =? 2) with true. cbv iota. unfold Size. rewrite (i64_small (r_size r)) by lia. rewrite <- E.
      rewrite i64_small by lia. exact S.
  Qed.

  Lemma step_Seek st m w off wh : minv st m w -> m_allowed st (MSeek off wh) -> step_ok st (MSeek off wh) (m, w).
  Proof.
    intros H (Hwh & Hoff & Ht). set (t := m_target st off wh) in *. destruct (minv_Sync _ _ _ H) as (m1 & w1 & E & H1).
    unfold step_ok. cbn [mod_step]. unfold mSeek, bind at 1. rewrite E. unfold bind at 1. rewrite (minv_Size _ _ _ H1). cbn [cleaned f_content].
    unfold bind at 1, get_mod at 1. cbn [fst].
    pose proof (minv_len _ _ _ H) as Hl. pose proof (zlen_nonneg (f_content st)) as H0. pose proof (mi_pos _ _ _ H) as Hp.
    assert (Eo : m_off m1 = f_pos st) by (rewrite (mi_off _ _ _ H1); reflexivity).
    assert (Enew : ((if wh =? 1 then ret (u64 (m_off m1 + u64 off)) else if wh =? 0 then ret (u64 off)
        else if wh =? 2 then ret (u64 (u64 (zlen (f_content st)) - u64 off)) else throw EInvalidWhence) : M mst Z) (m1, w1) = (Ok t, (m1, w1))).
    { destruct Hwh as [-> | [-> | (-> & -> & _)]].
      - change (0 <= off < 9223372036854775808) in Ht. change t with off. change (0 =? 1) with false. change (0 =? 0) with true. cbv iota. unfold ret. now rewrite (u64_small off) by (unfold two64; lia).
      - change (0 <= f_pos st + off < 9223372036854775808) in Ht. change t with (f_pos st + off). cbn [Z.eqb Pos.eqb]. unfold ret. change (1 =? 1) with true. cbv iota. rewrite Eo. unfold u64. rewrite Z.add_mod_idemp_r by (unfold two64; lia). fold (u64 (f_pos st + off)).
        now rewrite u64_small by (unfold two64; lia).
      - change t with (zlen (f_content st) + 0). change (2 =? 1) with false. change (2 =? 0) with false. change (2 =? 2) with true. cbv iota. unfold ret.
        change (u64 0) with 0. rewrite Z.sub_0_r, Z.add_0_r, (u64_small (zlen (f_content st))) by (unfold two64; lia). now rewrite u64_small by (unfold two64; lia). }
    unfold bind at 1. rewrite Enew. rewrite (i64_small t) by lia.
    set (rd := if zlen (f_content st) <? t then outdated (f_reader st) else f_reader st).
    assert (Enext : m_next st (MSeek off wh) = mkF (pad (f_content st) t) t false (repositioned (t =? f_pos st) rd) true) by now destruct st.
    rewrite Enext.
    assert (X : exists m2 w2, ((if zlen (f_content st) <? t then expandSparse (i64 (t - zlen (f_content st))) else ret tt) : M mst unit) (m1, w1) = (Ok tt, (m2, w2)) /\
      minv (mkF (pad (f_content st) t) (f_pos st) (f_moved st) rd true) m2 w2).
    { unfold rd. destruct (zlen (f_content st) <? t) eqn:E2.
      - destruct (minv_expand (cleaned st) m1 w1 t H1 eq_refl ltac:(cbn; lia)) as (m2 & w2 & X1 & _ & _ & X4). exists m2, w2. auto.
      - exists m1, w1. split; [reflexivity|]. rewrite pad_small by lia. exact H1. }
    destruct X as (m2 & w2 & X1 & H2). unfold bind at 1. rewrite X1. unfold bind at 1, upd_mod at 1. cbn [fst snd]. unfold bind at 1, get_mod at 1. cbn [fst m_set_start m_set_off m_read].
    assert (Hm2 : m_buf m2 = None) by (apply (mi_clean _ _ _ H2); reflexivity).
    assert (G : forall r2, (forall r, r2 = Some r -> rd <> NoReader /\ m_node m2 = Some (r_root r) /\ r_off r = t /\
         (repositioned (t =? f_pos st) rd <> Stale -> reader_at (pad (f_content st) t) t r) /\ (repositioned (t =? f_pos st) rd = Current -> r_size r = zlen (pad (f_content st) t))) ->
      minv (mkF (pad (f_content st) t) t false (repositioned (t =? f_pos st) rd) true) (m_set_read r2 (m_set_start t (m_set_off t m2))) w2).
    { intros r2 Hr2. destruct H2 as [A1 A2 A3 A4 A5 A6 A7 A8 A9 A10]. constructor; cbn [f_content f_pos f_moved f_reader f_clean m_set_start m_set_off m_set_read m_node m_buf m_off m_start m_read buf_len cleaned] in *; auto; try lia.
      - rewrite Hm2 in *. exact A1.
      - unfold buf_len. cbn [m_set_start m_set_off m_set_read m_buf]. rewrite Hm2. lia.
      - unfold buf_len. cbn [m_set_start m_set_off m_set_read m_buf]. rewrite Hm2. lia.
      - intros r Hr'. destruct (Hr2 r Hr') as (B1 & B2 & B3 & B4 & B5). split; [destruct rd, (t =? f_pos st); cbn; congruence|]. auto. }
    destruct (m_read m2) as [r|] eqn:Er.
    - destruct (mi_read _ _ _ H2 r Er) as (R1 & _ & R3 & R4 & R5 & R6). cbn [f_content f_pos f_reader] in *.
      destruct (minv_node _ _ _ H2 eq_refl) as (x & Hx & Hf & Hg & Ha). rewrite Hx in R3. injection R3 as ->. cbn [f_content] in Hf.
      assert (Hlp : zlen (pad (f_content st) t) < 9223372036854775808) by (rewrite pad_len; lia).
      assert (Htgt : (wh = 0 /\ t = off \/ wh = 1 /\ t = r_off r + off \/ wh = 2 /\ t = r_size r + off) /\ (0 <= r_size r < 9223372036854775808 \/ wh <> 2)).
      { destruct Hwh as [-> | [-> | (-> & -> & N1 & N2)]].
        - split; [left; auto|right; lia].
        - split; [right; left; rewrite R4; auto|right; lia].
        - assert (Et : t = zlen (f_content st)) by (change t with (zlen (f_content st) + 0); lia).
          assert (Erd : rd = f_reader st) by (unfold rd; rewrite Et, Z.ltb_irrefl; reflexivity).
          assert (Ec : rd = Current) by (rewrite Erd in *; destruct (f_reader st); congruence).
          pose proof (R6 Ec) as R7. rewrite pad_len in R7. split; [right; right; split; [reflexivity|lia]|left; lia]. }
      destruct Htgt as [Htgt Hrs].
      destruct (seek_any w2 _ off wh r t Hf Hlp (available_below _ _ Ha) Htgt Hrs Ht) as (r' & S1 & S2 & S3 & S4 & S5).
      unfold bind at 1. unfold bind at 1. unfold read_seek at 1. cbn [fst snd m_set_start m_set_off m_read]. rewrite Er, S1. cbn [rmap ret].
      eexists _, _, _. split; [reflexivity|]. split; [reflexivity|]. apply (G (Some r')). intros r0 Hr0. injection Hr0 as <-. rewrite S2, S3, Hx. split; [exact R1|]. split; [reflexivity|].
      split; [exact S4|]. split.
      + intros Hs. apply S5. destruct (Z.eq_dec t (f_pos st)) as [Et|Et]; [right|left; lia]. rewrite R4. apply R5. intros ->. apply Hs. cbn. now rewrite Et, Z.eqb_refl.
      + intros Hs. apply R6. destruct rd, (t =? f_pos st); cbn in Hs; congruence.
    - unfold bind. cbn [ret]. eexists _, _, _. split; [reflexivity|]. split; [reflexivity|].
      replace (m_set_start t (m_set_off t m2)) with (m_set_read None (m_set_start t (m_set_off t m2))) by (apply m_set_read_eta; exact Er). apply G. discriminate.
  Qed.

  Lemma step_WriteAt st m w b off : minv st m w -> m_allowed st (MWriteAt b off) -> step_ok st (MWriteAt b off) (m, w).
  Proof.
    intros H (Hc & Hmv & Ho & He & Hp). unfold step_ok. cbn [mod_step]. unfold WriteAt. unfold bind at 1, get_mod at 1. cbn [fst].
    rewrite (mi_clean _ _ _ H Hc). rewrite (mi_off _ _ _ H). pose proof (zlen_nonneg b) as Hb0. rewrite (u64_small off) by (unfold two64; lia).
    assert (Hbl : buf_len m = 0) by (unfold buf_len; now rewrite (mi_clean _ _ _ H Hc)).
    assert (Enext : m_next st (MWriteAt b off) = mkF (put (f_content st) off b) (f_pos st + zlen b) (negb (off =? f_pos st)) NoReader false) by now destruct st.
    rewrite Enext. destruct (off =? f_pos st) eqn:E1.
    - apply Z.eqb_eq in E1. unfold bind at 1. cbn [ret]. pose proof (mi_moved _ _ _ H (Hmv E1)) as Em. rewrite (mi_off _ _ _ H) in Em.
      destruct (minv_Write st m w b H ltac:(lia) Hp) as (m' & w' & X & H'). rewrite X. exists (BInt (zlen b)), m', w'. split; [reflexivity|]. split; [reflexivity|].
      rewrite (mi_off _ _ _ H), <- Em, Z.eqb_refl in H'. rewrite E1. exact H'.
    - unfold bind at 1. unfold bind at 1. rewrite (minv_Size _ _ _ H).
      pose proof (minv_len _ _ _ H) as Hl. pose proof (mi_pos _ _ _ H) as Hpos. pose proof (zlen_nonneg (f_content st)) as Hc0.
      set (mid := fun m1 : modifier => m_set_read None (m_set_start off m1)).
      assert (G : exists m1 w1, ((do _ <- (if zlen (f_content st) <? off then expandSparse (i64 (off - zlen (f_content st))) else ret tt) ;;
          do _ <- Sync split ;; upd_mod (m_set_start off)) : M mst unit) (m, w) = (Ok tt, (m1, w1)) /\
          m_start m1 = off /\ m_buf m1 = None /\ m_off m1 = f_pos st /\
          minv (mkF (pad (f_content st) off) (f_pos st) true Current true) (m_set_read None m1) w1).
      { unfold bind at 1. destruct (zlen (f_content st) <? off) eqn:E2.
        - destruct (minv_expand st m w off H Hc ltac:(lia)) as (m2 & w2 & X1 & Hb2 & X3 & X4). rewrite X1.
          unfold bind. rewrite Sync_none by exact Hb2. exists (m_set_start off m2), w2. split; [reflexivity|]. split; [reflexivity|]. split; [exact Hb2|].
          split; [cbn [m_set_start m_off]; rewrite X3; exact (mi_off _ _ _ H)|].
          destruct X4 as [A1 A2 A3 A4 A5 A6 A7 A8 A9 A10]. constructor; cbn [f_content f_pos f_moved f_reader f_clean m_set_start m_set_off m_set_read m_node m_buf m_off m_start m_read] in *; auto; try discriminate.
          + rewrite Hb2 in *. exact A1.
          + unfold buf_len. cbn [m_set_start m_set_read m_buf]. rewrite Hb2. lia.
        - unfold bind. cbn [ret]. rewrite Sync_none by exact (mi_clean _ _ _ H Hc). exists (m_set_start off m), w. split; [reflexivity|]. split; [reflexivity|].
          split; [exact (mi_clean _ _ _ H Hc)|]. split; [exact (mi_off _ _ _ H)|]. pose proof (mi_clean _ _ _ H Hc) as Hb2. rewrite pad_small by lia.
          destruct H as [A1 A2 A3 A4 A5 A6 A7 A8 A9 A10]. constructor; cbn [f_content f_pos f_moved f_reader f_clean m_set_start m_set_off m_set_read m_node m_buf m_off m_start m_read] in *; auto; try discriminate.
          + rewrite Hb2 in *. exact A1.
          + unfold buf_len. cbn [m_set_start m_set_read m_buf]. rewrite Hb2. lia. }
      destruct G as (m1 & w1 & G1 & G2 & G3 & G4 & G5). rewrite G1.
      assert (Hbl1 : buf_len (m_set_read None m1) = 0) by (unfold buf_len; cbn [m_set_read m_buf]; now rewrite G3).
      assert (Hst1 : m_start (m_set_read None m1) = off) by exact G2. assert (Hof1 : m_off (m_set_read None m1) = f_pos st) by exact G4.
      destruct (minv_Write _ _ _ b G5 ltac:(lia) Hp) as (m' & w' & X & H'). cbn [f_content f_pos] in H'.
      rewrite Hst1, Hbl1, Z.add_0_r, put_pad, Hof1 in H'.
      assert (X' : mWrite split wbsize b (m1, w1) = (Ok (zlen b), (m', w'))) by (rewrite <- X; destruct m1; reflexivity). rewrite X'.
      exists (BInt (zlen b)), m', w'. split; [reflexivity|]. split; [reflexivity|]. rewrite Z.eqb_sym, E1 in H'. exact H'.
  Qed.

  Lemma step_Read st m w k : minv st m w -> m_allowed st (MRead k) -> step_ok st (MRead k) (m, w).
  Proof.
    intros H Hns. cbn [m_allowed] in Hns. destruct (minv_Sync _ _ _ H) as (m1 & w1 & E & H1). destruct (minv_node _ _ _ H1 eq_refl) as (n & Hn & Hf & Hg & Ha). cbn [cleaned f_content] in Hf.
    pose proof (minv_len _ _ _ H) as Hl. pose proof (mi_pos _ _ _ H) as Hp. pose proof (zlen_nonneg (f_content st)) as H0.
    assert (Eo : m_off m1 = f_pos st) by (rewrite (mi_off _ _ _ H1); reflexivity).
    assert (P : exists m2 r, readPrep split (m, w) = (Ok tt, (m2, w1)) /\ m2 = m_set_read (Some r) m1 /\
      r_root r = n /\ (f_reader st = NoReader \/ f_reader st = Current -> r_size r = zlen (f_content st)) /\ reader_at (f_content st) (f_pos st) r).
    { unfold readPrep, bind at 1. rewrite E. unfold bind at 1, get_mod at 1. cbn [fst]. destruct (m_read m1) as [r|] eqn:Er.
      - destruct (mi_read _ _ _ H1 r Er) as (R1 & _ & R3 & R4 & R5 & R6). cbn [cleaned f_content f_pos f_reader] in *. exists m1, r. cbn [ret]. split; [reflexivity|]. split; [destruct m1; cbn in *; now rewrite Er|].
        split; [congruence|]. split; [intros [X|X]; [contradiction|auto]|auto].
      - unfold bind at 1. cbn [fst]. rewrite Hn. unfold bind at 1, get_world at 1. cbn [snd]. unfold bind at 1, lift at 1.
        rewrite (new_file w1 n (f_content st) Hf) by lia. set (r0 := mkReader _ _ _ _ _). rewrite Eo, (i64_small (f_pos st)) by lia.
        assert (R0 : reader_at (f_content st) 0 r0) by (apply reader_at_new; destruct Hf as (cs & Hcs & ->); now apply file_dag_tree).
        destruct (seek_any w1 (f_content st) (f_pos st) 0 r0 (f_pos st) Hf Hl (available_below _ _ Ha) ltac:(auto) ltac:(lia) Hp) as (r' & S1 & S3 & S4 & _ & S2).
        specialize (S2 (or_intror R0)). rewrite S1. unfold bind, lift. rewrite Z.eqb_refl. exists (m_set_read (Some r') m1), r'. split; [reflexivity|]. split; [reflexivity|]. auto. }
    destruct P as (m2 & r & P1 & P2 & P3 & P4 & P5).
    unfold step_ok. cbn [mod_step]. unfold mRead, bind. rewrite P1. cbn [fst snd]. subst m2. cbn [m_set_read m_read].
    destruct (read_step w1 (f_content st) (f_pos st) k r P5) as (o & r' & pos' & S1 & S2 & S3 & S4 & S5). cbn [reader_step] in S1.
    destruct S5 as [S5|[S5 _]]; [|exfalso; apply S5; rewrite P3; now apply available_below].
    destruct (CtxReadFull w1 k r) as [[b e] r1].
    assert (Ee : exists x, obs_err e = Some x /\ o = (b, zlen b, x) /\ r' = r1).
    { destruct (obs_err e) as [x|]; [|discriminate]. injection S1 as <- <-. eauto. }
    destruct Ee as (x & Ex & -> & ->).
    assert (Eb : b = read_at (f_content st) (f_pos st) k /\ pos' = f_pos st + zlen b) by (inversion S5; subst; auto). destruct Eb as [Eb Epos].
    assert (Hb : zlen b <= Z.max 0 (zlen (f_content st) - f_pos st)) by (rewrite Eb; apply read_at_len). pose proof (zlen_nonneg b) as Hb0.
    assert (Enext : m_next st (MRead k) = mkF (f_content st) (f_pos st + zlen b) (f_moved st || (0 <? zlen b)) (match f_reader st with NoReader => Current | x => x end) true) by (rewrite Eb; destruct st as [? ? ? rd ?]; now destruct rd).
    assert (HI : minv (m_next st (MRead k)) (m_set_off (u64 (m_off m1 + zlen b)) (m_set_read (Some r1) m1)) w1).
    { rewrite Enext. rewrite Eo, u64_small by (unfold two64; lia). destruct H1 as [A1 A2 A3 A4 A5 A6 A7 A8 A9 A10].
      constructor; cbn [f_content f_pos f_moved f_reader f_clean m_set_off m_set_read m_node m_buf m_off m_start m_read cleaned] in *; auto; try lia.
      - intros Hm. apply orb_false_iff in Hm as [Hm1 Hm2]. unfold buf_len in *. cbn [m_set_off m_set_read m_buf]. specialize (A8 Hm1). lia.
      - intros r0 Hr0. injection Hr0 as <-. split; [destruct (f_reader st); discriminate|]. split; [auto|]. split; [congruence|]. rewrite <- Epos. split; [exact (ra_off _ _ _ S2)|]. split; [auto|].
        intros Hc. rewrite S4. apply P4. destruct (f_reader st); auto; discriminate. }
    change (m_off (m_set_read (Some r) m1)) with (m_off m1).
    destruct e as [[]|e| |]; cbn [obs_err] in Ex; try discriminate; injection Ex as <-; eexists _, _, _; (split; [reflexivity|]); (split; [eexists _, _, _; split; [reflexivity|exact S5]|exact HI]).
  Qed.

  Lemma run_like_file ops : forall st m w, minv st m w -> all_allowed st ops ->
    exists h s, mod_run ops (m, w) = Some (h, s) /\ map (fun x => fst (fst x)) h = ops /\ like_file st h.
  Proof.
    induction ops as [|op r IH]; intros st m w H Ha; [exists [], (m, w); cbn; auto|]. destruct Ha as [Ha Hr].
    assert (S : step_ok st op (m, w)).
    { destruct op; [now apply step_Write|now apply step_WriteAt|now apply step_Seek|now apply step_Truncate|apply step_Read; assumption|now apply step_Size|now apply step_Sync|now apply step_GetNode]. }
    destruct S as (o & m' & w' & S1 & S2 & S3). destruct (IH _ _ _ S3 Hr) as (h & s & I1 & I2 & I3).
    exists ((op, o, w') :: h), s. cbn [mod_run]. rewrite S1, I1. cbn [map fst like_file snd]. split; [reflexivity|]. split; [now rewrite I2|]. auto.
  Qed.

  Lemma minv_new n c w : file_content n c -> growable K n -> available w n -> can_add w -> serves w -> zlen c < 9223372036854775808 ->
    minv (mkF c 0 false NoReader true) (NewDagModifier n) w.
  Proof using. clear split_ok split.
    intros H1 H2 H3 H4 H5 H6. constructor; cbn; auto; try lia; [eauto 10|discriminate].
  Qed.
End Run.
