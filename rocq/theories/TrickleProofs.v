(** Lemmas about the trickle layout. *)
From Verif Require Import Base Pb PbProofs FSNode FSNodeProofs Dag DagProofs Builder Trickle SpecFile BuilderProofs.

(** ** Loop rules *)

Lemma add_children_rule c (P : node -> list bytes -> db -> Prop) mk (I : nat -> fsn -> list (list bytes) -> db -> Prop) :
  (forall m n css d x sz cs d1 d2, I (S m) n css d -> pend d <> [] ->
     P x cs d1 -> pend d2 = pend d1 -> cfg d2 = cfg d -> I m (with_child n x sz) (css ++ [cs]) d2) ->
  (forall m n css d d', I m n css d -> pend d' = pend d -> cfg d' = cfg d -> I m n css d') ->
  forall m n d css0, mk_ok c P mk (length (pend d)) -> cfg d = c -> file_ok (f_file n) ->
  0 <= db_offset d < two64 -> I m n css0 d ->
  gpost n d (fun n' d' css => exists m', I m' n' (css0 ++ css) d' /\ (m' = 0%nat \/ pend d' = []) /\
      (m <> 0%nat -> pend d <> [] -> css <> []))
    (add_children mk m (n, d)).
Proof.
  intros HI HIq. induction m as [|m IH]; intros n d css0 Hmk Hc Hf Ho Hi; cbn [add_children].
  - cbn. exists [], []. split; [now apply grown_refl|]. exists 0%nat. rewrite app_nil_r. split; [assumption|]. split; [auto|congruence].
  - unfold bind at 1, on_db at 1. cbn [fst snd]. rewrite Done_spec. apply gpost_prepare; auto.
    pose proof (db_step_prepare d Ho) as Hq. destruct (pend d) as [|e r] eqn:Ep.
    + cbn. exists [], []. split; [apply grown_refl; [assumption|eapply db_step_off, Hq]|]. exists (S m). rewrite app_nil_r.
      split; [eapply HIq; [exact Hi|apply pend_prepare|eapply cfg_step, Hq]|]. split; [|congruence]. right. now rewrite pend_prepare.
    + set (d1 := prepareNext d) in *.
      assert (Ep1 : pend d1 = e :: r) by (unfold d1; rewrite pend_prepare; assumption).
      assert (Hc1 : cfg d1 = c) by (rewrite (cfg_step _ _ _ _ Hq); assumption).
      assert (Eq : (do c0 <- on_db mk;; (do _ <- AddChild (fst c0) (snd c0);; add_children mk m)) (n, d1)
        = (do _ <- (do c0 <- on_db mk ;; AddChild (fst c0) (snd c0)) ;; add_children mk m) (n, d1)).
      { unfold bind. destruct (on_db mk (n, d1)) as [[] ?]; reflexivity. }
      rewrite Eq. eapply gpost_seq.
      * eapply (one_child c P mk (length (pend d1))); auto.
        -- rewrite Ep1. exact Hmk.
        -- apply (db_step_off _ _ _ _ Hq).
        -- rewrite Ep1. discriminate.
      * intros n2 d2 css a G (x & sz & cs & d1' & -> & -> & HP & Hp2).
        assert (Hc2 : cfg d2 = c) by (rewrite (cfg_step _ _ _ _ (gr_step _ _ _ _ _ _ G)); assumption).
        eapply gpost_weaken.
        -- apply (IH (with_child n x sz) d2 (css0 ++ [cs])); auto.
           ++ eapply mk_ok_mono; [exact Hmk|]. rewrite <- Ep1. pose proof (grown_shorter _ _ _ _ _ _ G). lia.
           ++ eapply grown_file_ok, G.
           ++ eapply db_step_off, G.
           ++ eapply HI; [eapply (HIq _ n css0 d d1)| | | | ].
              ** exact Hi.
              ** rewrite Ep1, Ep. reflexivity.
              ** rewrite Hc1, Hc. reflexivity.
              ** rewrite Ep1. discriminate.
              ** exact HP.
              ** exact Hp2.
              ** rewrite Hc2, Hc1. reflexivity.
        -- cbn beta. intros n3 d3 c3 a3 _ (m' & H1 & H2 & H3). exists m'. rewrite app_assoc. split; [exact H1|].
           split; [exact H2|]. discriminate.
Qed.

(** The loop over depths; [H] is the invariant at the loop head. *)
Lemma depth_loop_rule c (P : Z -> node -> list bytes -> db -> Prop) fill maxDepth
  (H : Z -> fsn -> list (list bytes) -> db -> Prop) (I : Z -> nat -> fsn -> list (list bytes) -> db -> Prop) :
  (forall j m n css d x sz cs d1 d2, I j (S m) n css d -> pend d <> [] ->
     P j x cs d1 -> pend d2 = pend d1 -> cfg d2 = cfg d -> I j m (with_child n x sz) (css ++ [cs]) d2) ->
  (forall j m n css d d', I j m n css d -> pend d' = pend d -> cfg d' = cfg d -> I j m n css d') ->
  (forall j n css d d', H j n css d -> pend d' = pend d -> cfg d' = cfg d -> H j n css d') ->
  (forall j n css d, H j n css d -> pend d <> [] -> I j (Z.to_nat depthRepeat) n css d) ->
  (forall j m n css d, I j m n css d -> (m = 0%nat \/ pend d = []) -> H (j + 1) n css d) ->
  forall fuel j n d css0, 1 <= j -> (length (pend d) <= fuel)%nat ->
  (forall j', 1 <= j' -> (maxDepth = -1 \/ j' < maxDepth) -> mk_ok c (P j') (fill j') (length (pend d))) -> cfg d = c -> file_ok (f_file n) ->
  0 <= db_offset d < two64 -> H j n css0 d ->
  gpost n d (fun n' d' css => exists j', H j' n' (css0 ++ css) d' /\ (pend d' = [] \/ (maxDepth <> -1 /\ maxDepth <= j')) /\
      (j <= maxDepth -> j' <= maxDepth) /\ (maxDepth = -1 -> pend d' = []))
    (depth_loop fill fuel j maxDepth (n, d)).
Proof.
  intros HI HIq HHq Hin Hout. induction fuel as [|fuel IH]; intros j n d css0 Hj Hfu Hmk Hc Hf Ho Hh; cbn [depth_loop];
    destruct ((maxDepth =? -1) || (j <? maxDepth)) eqn:E;
    try (cbn; exists [], []; split; [now apply grown_refl|]; exists j; rewrite app_nil_r; split; [assumption|]; split; [right; lia|];
         split; [lia|intros; lia]).
  - unfold bind at 1, on_db at 1. cbn [fst snd]. rewrite Done_spec. pose proof (db_step_prepare d Ho) as Hq.
    destruct (pend d) as [|e r] eqn:Ep; [|cbn in Hfu; lia]. apply gpost_prepare; auto.
    cbn. exists [], []. split; [apply grown_refl; [assumption|eapply db_step_off, Hq]|]. exists j. rewrite app_nil_r, pend_prepare.
    split; [eapply HHq; [exact Hh|apply pend_prepare|eapply cfg_step, Hq]|]. auto.
  - unfold bind at 1, on_db at 1. cbn [fst snd]. rewrite Done_spec. pose proof (db_step_prepare d Ho) as Hq. apply gpost_prepare; auto.
    destruct (pend d) as [|e r] eqn:Ep.
    + cbn. exists [], []. split; [apply grown_refl; [assumption|eapply db_step_off, Hq]|]. exists j. rewrite app_nil_r, pend_prepare.
      split; [eapply HHq; [exact Hh|apply pend_prepare|eapply cfg_step, Hq]|]. auto.
    + set (d1 := prepareNext d) in *.
      assert (Ep1 : pend d1 = e :: r) by (unfold d1; rewrite pend_prepare; assumption).
      assert (Hc1 : cfg d1 = c) by (rewrite (cfg_step _ _ _ _ Hq); assumption).
      assert (Hm : mk_ok c (P j) (fill j) (length (pend d1))).
      { rewrite Ep1. apply Hmk; [assumption|]. lia. }
      eapply gpost_seq.
      * apply (add_children_rule c (P j) (fill j) (I j)) with (css0 := css0); auto.
        -- intros m n2 css d2 x sz cs d3 d4 K1 K2 K3 K4 K5. eapply HI; eassumption.
        -- intros m n2 css d2 d3 K1 K2 K3. eapply HIq; eassumption.
        -- eapply db_step_off, Hq.
        -- apply Hin; [|rewrite Ep1; discriminate]. eapply HHq; [exact Hh|now rewrite Ep1, Ep|now rewrite Hc1, Hc].
      * intros n2 d2 css a G (m' & HI2 & Hm2 & Hprog).
        assert (Hc2 : cfg d2 = c) by (rewrite (cfg_step _ _ _ _ (gr_step _ _ _ _ _ _ G)); assumption).
        pose proof (grown_shorter _ _ _ _ _ _ G) as Hsh. rewrite Ep1 in Hsh.
        assert (css <> []) by (apply Hprog; [discriminate|rewrite Ep1; discriminate]).
        assert (1 <= length css)%nat by (destruct css; [congruence|cbn; lia]).
        eapply gpost_weaken.
        -- apply (IH (j + 1) n2 d2 (css0 ++ css)); auto.
           ++ lia.
           ++ cbn [length] in *. lia.
           ++ intros j' Hj' Hlt. eapply mk_ok_mono; [apply Hmk; assumption|]. lia.
           ++ eapply grown_file_ok, G.
           ++ eapply db_step_off, G.
           ++ eapply Hout; eassumption.
        -- cbn beta. intros n3 d3 c3 a3 _ (j' & Q1 & Q2 & Q3 & Q4). exists j'. rewrite app_assoc. split; [exact Q1|].
           split; [exact Q2|]. split; [lia|exact Q4].
Qed.

(** ** The layout *)

Section Fill.
  Variable c : bool * Z * option prefix * bool.
  Let k := snd (fst (fst c)).
  Let raw := fst (fst (fst c)).
  Let bu := snd (fst c).
  Let leaf := leaf_of raw bu TRaw.
  Definition is_inner (n : node) : Prop := exists b ls f, n = NProto (proto_prefix bu) b ls /\
    FSNodeFromBytes b = Ok f /\ getType f = TFile /\ getData f = [].
  Let trk := trickle k depthRepeat leaf is_inner.
  Let cpl := complete k depthRepeat.
  Let lcp := left_complete k depthRepeat.

  (** The links of a node in progress. *)
  Definition tkids (n : fsn) (d : db) : Prop :=
    zlen (f_links n) = fNumChildren n /\
    (forall i l, nth_error (f_links n) i = Some l -> Z.of_nat i < k -> leaf (lto l)) /\
    (forall i l, nth_error (f_links n) i = Some l -> k <= Z.of_nat i -> trk (layer k depthRepeat i) (lto l)) /\
    (forall i l, nth_error (f_links n) i = Some l -> k <= Z.of_nat i -> (S i < length (f_links n))%nat \/ pend d <> [] ->
       cpl (layer k depthRepeat i) (lto l)) /\
    (forall i l, nth_error (f_links n) i = Some l -> k <= Z.of_nat i -> lcp (lto l)) /\
    Forall (fun l => uni d TRaw (lto l)) (f_links n).

  Lemma tkids_quiet n d d' : tkids n d -> pend d' = pend d -> cfg d' = cfg d -> tkids n d'.
  Proof.
    intros (H1 & H2 & H3 & H4 & H5 & H6) E Ec. unfold tkids. rewrite E. repeat (split; [assumption|]).
    eapply Forall_impl; [|exact H6]. intros l. now apply uni_cfg.
  Qed.

  (** A finished sub-graph of depth [j]. *)
  Definition ttree (j : Z) (x : node) (_ : list bytes) (d : db) : Prop :=
    seal x = x /\ uni d TRaw x /\ trk j x /\ lcp x /\ (pend d <> [] -> cpl j x) /\ cfg d = c.

  Lemma nth_error_snoc {A} (l : list A) x i y : nth_error (l ++ [x]) i = Some y ->
    nth_error l i = Some y /\ (i < length l)%nat \/ i = length l /\ y = x.
  Proof.
    destruct (lt_dec i (length l)) as [H|H].
    - rewrite nth_error_app1 by assumption. auto.
    - rewrite nth_error_app2 by lia. intros E. right. destruct (i - length l)%nat eqn:Ei; cbn in E.
      + injection E as <-. split; [lia|reflexivity].
      + destruct n; discriminate.
  Qed.

  Lemma tkids_leaf n d x sz d1 d2 : tkids n d -> fNumChildren n < k -> pend d <> [] -> seal x = x -> leaf x -> uni d1 TRaw x ->
    cfg d1 = cfg d -> pend d2 = pend d1 -> cfg d2 = cfg d -> tkids (with_child n x sz) d2.
  Proof.
    intros (H1 & H2 & H3 & H4 & H5 & H6) Hk Hp Hs Hl Hu Hc1 Ep Hc2. unfold tkids. rewrite fNum_child.
    unfold with_child. cbn [f_links]. unfold make_link. rewrite Hs.
    split; [rewrite zlen_app, zlen_cons, zlen_nil; lia|]. unfold zlen in *.
    split; [|split; [|split; [|split]]].
    - intros i l Hn Hi. apply nth_error_snoc in Hn as [[Hn _]|[-> ->]]; [eauto|exact Hl].
    - intros i l Hn Hi. apply nth_error_snoc in Hn as [[Hn Hi2]|[-> ->]]; lia.
    - intros i l Hn Hi. apply nth_error_snoc in Hn as [[Hn Hi2]|[-> ->]]; lia.
    - intros i l Hn Hi. apply nth_error_snoc in Hn as [[Hn Hi2]|[-> ->]]; lia.
    - apply Forall_app. split.
      + eapply Forall_impl; [|exact H6]. intros l. now apply uni_cfg.
      + constructor; [|constructor]. eapply uni_cfg; [|exact Hu]. congruence.
  Qed.

  Lemma tkids_sub n d j x sz d1 d2 cs : tkids n d -> k <= fNumChildren n -> layer k depthRepeat (length (f_links n)) = j ->
    pend d <> [] -> ttree j x cs d1 -> cfg d = c -> pend d2 = pend d1 -> cfg d2 = cfg d -> tkids (with_child n x sz) d2.
  Proof.
    intros (H1 & H2 & H3 & H4 & H5 & H6) Hk Hlay Hp (T1 & T2 & T3 & T4 & T5 & T6) Hc1 Ep Hc2. unfold tkids. rewrite fNum_child.
    unfold with_child. cbn [f_links]. unfold make_link. rewrite T1.
    split; [rewrite zlen_app, zlen_cons, zlen_nil; lia|]. unfold zlen in *.
    split; [|split; [|split; [|split]]].
    - intros i l Hn Hi. apply nth_error_snoc in Hn as [[Hn _]|[-> ->]]; [eauto|lia].
    - intros i l Hn Hi. apply nth_error_snoc in Hn as [[Hn Hi2]|[-> ->]]; [eauto|]. rewrite Hlay. exact T3.
    - intros i l Hn Hi Hor. apply nth_error_snoc in Hn as [[Hn Hi2]|[-> ->]]; [apply H4; auto|].
      rewrite Hlay. apply T5. rewrite app_length in Hor. cbn [length] in Hor. rewrite <- Ep. destruct Hor; [lia|assumption].
    - intros i l Hn Hi. apply nth_error_snoc in Hn as [[Hn Hi2]|[-> ->]]; [eauto|]. exact T4.
    - apply Forall_app. split.
      + eapply Forall_impl; [|exact H6]. intros l. now apply uni_cfg.
      + constructor; [|constructor]. eapply uni_cfg; [|exact T2]. congruence.
  Qed.

  Definition layer_inv (j : Z) (m : nat) (n : fsn) (_ : list (list bytes)) (d : db) : Prop :=
    tkids n d /\ cfg d = c /\ 1 <= j /\
    (k <= fNumChildren n /\ (m <= Z.to_nat depthRepeat)%nat /\ fNumChildren n = k + depthRepeat * j - Z.of_nat m).
  Definition head_inv (j : Z) (n : fsn) (_ : list (list bytes)) (d : db) : Prop :=
    tkids n d /\ cfg d = c /\ 1 <= j /\
    fNumChildren n <= Z.max 0 k + depthRepeat * (j - 1) /\ (pend d <> [] -> fNumChildren n = k + depthRepeat * (j - 1)).

  Lemma leaf_mk L : mk_ok c (fun x cs d1 => seal x = x /\ leaf x /\ uni d1 TRaw x /\ cfg d1 = c) (NewLeafDataNode TRaw) L.
  Proof.
    intros d Hc Ho Hp _. eapply mk_post_weaken; [apply leaf_made; auto; now right|].
    cbn beta. intros x sz cs d' a Hm [Hl _].
    assert (Hc' : cfg d' = cfg d) by (eapply cfg_step, Hm).
    split; [eapply file_dag_seal, Hm|]. split.
    - unfold leaf, raw, bu. rewrite <- Hc. exact Hl.
    - split; [|congruence]. eapply uni_cfg; [exact Hc'|]. apply (uni_leaf d TRaw). exact Hl.
  Qed.

  Lemma cfg_k d : cfg d = c -> db_maxlinks d = k.
  Proof. intros E. unfold k. rewrite <- E. reflexivity. Qed.
  Lemma cfg_bu d : cfg d = c -> db_builder d = bu.
  Proof. intros E. unfold bu. rewrite <- E. reflexivity. Qed.

  (** FillNodeLayer from any node. *)
  Lemma FillNodeLayer_spec n d : cfg d = c -> file_ok (f_file n) -> d_type (f_file n) <> None ->
    0 <= db_offset d < two64 -> tkids n d -> (fNumChildren n <= Z.max 0 k) ->
    gpost n d (fun n' d' css => tkids n' d' /\ cfg d' = c /\ committed n' /\ fNumChildren n' <= Z.max 0 k /\
       (k <= fNumChildren n' \/ pend d' = []) /\ (fNumChildren n < k -> pend d <> [] -> css <> []))
      (FillNodeLayer (n, d)).
  Proof.
    intros Hc Hf Ht Ho Hi Hle. unfold FillNodeLayer. eapply gpost_seq.
    - eapply (fill_loop_rule c (fun x cs d1 => seal x = x /\ leaf x /\ uni d1 TRaw x /\ cfg d1 = c) (NewLeafDataNode TRaw) (fun n css d => tkids n d /\ cfg d = c /\ fNumChildren n <= Z.max 0 k)).
      + intros n1 css d1 x sz cs d2 d3 (K1 & K2 & K3) Hlt Hp (T1 & T2 & T3 & T4) Hq Hq2. rewrite (cfg_k d1 K2) in Hlt.
        split; [|split; [congruence|rewrite fNum_child; lia]].
        apply (tkids_leaf n1 d1 x sz d2 d3); auto. congruence.
      + intros n1 css d1 d2 (K1 & K2 & K3) E Ec. split; [|split; [congruence|assumption]]. eapply tkids_quiet; eauto.
      + exact [].
      + apply le_n.
      + apply leaf_mk.
      + exact Hc.
      + exact Hf.
      + exact Ho.
      + auto.
    - intros n1 d1 css a G [(K & Kc & Kn) Hd]. rewrite (cfg_k d1 Kc) in Hd. apply commit_spec.
      + eapply grown_file_ok, G.
      + eapply db_step_off, G.
      + rewrite (gr_type _ _ _ _ _ _ G). exact Ht.
      + intros b Hb. rewrite app_nil_r. split; [exact K|]. split; [exact Kc|]. split; [exact Hb|]. split; [exact Kn|].
        split; [exact Hd|]. intros Hlt Hp ->. destruct Hd as [Hd|Hd].
        * assert (E : fNumChildren n1 = fNumChildren n).
          { unfold fNumChildren, NumChildren. rewrite (gr_blocks _ _ _ _ _ _ G). cbn. now rewrite app_nil_r. }
          lia.
        * rewrite (st_pend _ _ _ _ (gr_step _ _ _ _ _ _ G)), Hd in Hp. now apply Hp.
  Qed.

  Lemma tkids_done n d D b f : tkids n d -> f_prefix n = proto_prefix bu -> cfg d = c ->
    FSNodeFromBytes b = Ok f -> getType f = TFile -> getData f = [] -> f_links n <> [] ->
    (D = -1 \/ fNumChildren n <= k + depthRepeat * (D - 1)) -> 
    trk D (NProto (f_prefix n) b (f_links n)) /\ lcp (NProto (f_prefix n) b (f_links n)) /\
    uni d TRaw (NProto (f_prefix n) b (f_links n)) /\
    (pend d <> [] -> fNumChildren n = k + depthRepeat * (D - 1) -> cpl D (NProto (f_prefix n) b (f_links n))).
  Proof.
    intros (H1 & H2 & H3 & H4 & H5 & H6) Hpre Hc Hb Hty Hda Hne HD. split; [|split; [|split]].
    - constructor; cbn [node_links].
      + rewrite Hpre. exists b, (f_links n), f. auto.
      + exact H2.
      + intros i l Hn Hi. destruct HD as [HD|HD]; [now left|]. right. unfold layer.
        assert (i < length (f_links n))%nat by (apply nth_error_Some; congruence).
        unfold zlen, depthRepeat in *. lia.
      + exact H3.
    - constructor; cbn [node_links].
      + intros i l Hn Hi Hlt. apply H4; auto.
      + intros i l Hn Hi _. eapply H5; eassumption.
    - apply uni_node; auto. rewrite Hpre. f_equal. symmetry. now apply cfg_bu.
    - intros Hp E. constructor; cbn [node_links].
      + lia.
      + intros i l Hn Hi. apply H4; auto.
  Qed.

  Lemma tkids_new d : tkids (NewFSNodeOverDag (db_builder d) TFile) d.
  Proof. unfold tkids. split; [reflexivity|].
    repeat (split; [intros [|i] l E; discriminate E|]). constructor. Qed.

  Lemma new_ok b t : file_ok (f_file (NewFSNodeOverDag b t)).
  Proof. exists 0. split; [reflexivity|]. split; reflexivity || lia. Qed.

  Hypothesis Hk : 1 <= k.

  (** Filling a new node. *)
  Lemma fill_spec fuel : forall D n d, (length (pend d) < fuel)%nat -> cfg d = c -> n = NewFSNodeOverDag (db_builder d) TFile ->
    0 <= db_offset d < two64 -> D = -1 \/ 1 <= D ->
    gpost n d (fun n' d' css => tkids n' d' /\ cfg d' = c /\ committed n' /\ (pend d <> [] -> css <> []) /\
       (D = -1 \/ fNumChildren n' <= k + depthRepeat * (D - 1)) /\
       (pend d' <> [] -> D <> -1 /\ fNumChildren n' = k + depthRepeat * (D - 1)))
      (fillTrickleRec fuel D (n, d)).
  Proof.
    induction fuel as [|fuel IH]; intros D n d Hfu Hc -> Ho HD; [lia|]. cbn [fillTrickleRec].
    set (n0 := NewFSNodeOverDag (db_builder d) TFile) in *.
    eapply gpost_seq.
    { apply FillNodeLayer_spec; auto.
      - apply new_ok.
      - discriminate.
      - apply tkids_new.
      - change (0 <= Z.max 0 k). lia. }
    intros n1 d1 css1 a1 G1 (K1 & Kc1 & _ & Kn1 & Kd1 & Kp1).
    assert (Hcss : pend d <> [] -> css1 <> []) by (apply Kp1; change (0 < k); lia).
    pose proof (grown_shorter _ _ _ _ _ _ G1) as Hsh1.
    assert (pend d1 = [] \/ 1 <= length css1)%nat.
    { destruct (pend d) as [|e r] eqn:Ep; [left; destruct (pend d1); [reflexivity|cbn in *; lia]|].
      right. specialize (Hcss ltac:(discriminate)). destruct css1; [congruence|cbn; lia]. }
    assert (Hfu1 : (length (pend d1) < fuel)%nat \/ pend d1 = []) by (destruct H; [now right|left; lia]).
    eapply gpost_seq.
    { apply (depth_loop_rule c ttree (fun depth b => with_new (NewFSNodeOverDag (db_builder b) TFile) (fillTrickleRec fuel depth) b) D
        head_inv layer_inv) with (css0 := []).
      - intros j m n css d' x sz cs d2 d3 (I1 & I2 & I3 & I4 & I5 & I6) Hp' T Ep Ec.
        assert (Hz : zlen (f_links n) = fNumChildren n) by apply I1. unfold zlen in Hz.
        split; [|split; [congruence|split; [assumption|]]].
        + apply (tkids_sub n d' j x sz d2 d3 cs); auto. unfold layer, depthRepeat in *. lia.
        + rewrite fNum_child. unfold depthRepeat in *. lia.
      - intros j m n css d' d2 (I1 & I2 & I3) E Ec. split; [eapply tkids_quiet; eauto|]. split; [congruence|assumption].
      - intros j n css d' d2 (I1 & I2 & I3) E Ec. split; [eapply tkids_quiet; eauto|]. rewrite E. split; [congruence|assumption].
      - intros j n css d' (I1 & I2 & I3 & I4 & I5) Hp'. specialize (I5 Hp'). split; [assumption|]. split; [assumption|]. split; [assumption|].
        unfold depthRepeat in *. lia.
      - intros j m n css d' (I1 & I2 & I3 & I4 & I5 & I6) Hor. split; [assumption|]. split; [assumption|]. split; [lia|].
        unfold depthRepeat in *. split; [lia|]. intros Hp'. destruct Hor as [->|Hor]; [lia|congruence].
      - lia.
      - destruct Hfu1 as [Hfu1|Hfu1]; [lia|rewrite Hfu1; cbn; lia].
      - intros j Hj Hlt d' Hc' Ho' Hp' HL. eapply mk_post_weaken.
        + apply (with_new_made d' (fillTrickleRec fuel j) (fun n' d' css => tkids n' d' /\ cfg d' = c /\
             (j = -1 \/ fNumChildren n' <= k + depthRepeat * (j - 1)) /\
             (pend d' <> [] -> j <> -1 /\ fNumChildren n' = k + depthRepeat * (j - 1)))).
          eapply gpost_weaken.
          * apply IH; auto. destruct Hfu1 as [Hfu1|Hfu1]; [lia|]. rewrite Hfu1 in HL. cbn in HL. destruct (pend d'); [congruence|cbn in HL; lia].
          * cbn beta. intros. tauto.
        + cbn beta. intros x sz cs d2 a Hm (n2 & css2 & a2 & En & Ecs & G2 & (Q1 & Q2 & Q3 & Q4) & Q5 & Q6).
          assert (Hg : good_data (f_file n2)) by (eapply grown_new_good; [reflexivity|left; reflexivity|exact G2]).
          destruct (tkids_done n2 d2 j (f_bytes n2) (f_file n2)) as (E1 & E2 & E3 & E4); auto.
          * rewrite (gr_prefix _ _ _ _ _ _ G2). cbn. f_equal. now apply cfg_bu.
          * eapply unmarshal_marshal; [exact Hg|exact Q5].
          * unfold getType. rewrite (gr_type _ _ _ _ _ _ G2). reflexivity.
          * unfold getData. rewrite (gr_data _ _ _ _ _ _ G2). reflexivity.
          * intros E. destruct (gr_links _ _ _ _ _ _ G2) as (ls & El & _ & F & _). cbn in El. rewrite E in El. subst ls.
            inversion F. congruence.
          * rewrite En. split; [rewrite <- En; eapply file_dag_seal, Hm|]. split; [exact E3|]. split; [exact E1|]. split; [exact E2|].
            split; [|exact Q2]. intros Hp2. apply E4; [exact Hp2|]. now apply Q4.
      - exact Kc1.
      - eapply grown_file_ok, G1.
      - eapply db_step_off, G1.
      - split; [exact K1|]. split; [exact Kc1|]. split; [lia|]. unfold depthRepeat. split; [lia|]. intros Hp1.
        destruct Kd1; [lia|congruence]. }
    intros n2 d2 css2 a2 G2 (j' & (I1 & I2 & I3 & I4 & I5) & Hor & Hj1 & Hj2). apply commit_spec.
    - eapply grown_file_ok, G2.
    - eapply db_step_off, G2.
    - rewrite (gr_type _ _ _ _ _ _ G2), (gr_type _ _ _ _ _ _ G1). discriminate.
    - intros b Hb. rewrite app_nil_r. split; [exact I1|]. split; [exact I2|]. split; [exact Hb|].
      split; [intros Hp; specialize (Hcss Hp); destruct css1; [congruence|discriminate]|].
      destruct HD as [HD|HD].
      + split; [now left|]. intros Hp2. specialize (Hj2 HD). change (fNumChildren (mkFsn _ _ _ (f_file n2))) with (fNumChildren n2). congruence.
      + specialize (Hj1 HD). unfold depthRepeat in *. change (fNumChildren (mkFsn _ _ _ (f_file n2))) with (fNumChildren n2). split; [right; lia|]. intros Hp2.
        specialize (I5 Hp2). destruct Hor as [Hor|Hor]; [congruence|]. lia.
  Qed.
End Fill.

(** ** Verification *)

Lemma trickle_mono k r (l1 l2 i1 i2 : node -> Prop) : (forall n, l1 n -> l2 n) -> (forall n, i1 n -> i2 n) ->
  forall D n, trickle k r l1 i1 D n -> trickle k r l2 i2 D n.
Proof.
  intros Hl Hi D n. revert D. induction n as [p d|p d ls IH] using node_ind'; intros D H; inversion H; subst; constructor; auto.
  - eauto.
  - intros i l Hn. destruct i; discriminate.
  - eauto.
  - intros i l Hn Hle. rewrite Forall_forall in IH. cbn [node_links] in *. apply IH; [eapply nth_error_In, Hn|]. eauto.
Qed.

Lemma check_prefix_iff n codec p : check_prefix n codec p = Ok tt <-> prefix_expected (v_prefix p) codec (node_prefix n).
Proof.
  unfold check_prefix, prefix_expected. destruct (v_prefix p) as [e|]; [|tauto].
  destruct (prefix_eqb _ _) eqn:E.
  - split; [|reflexivity]. intros _. apply prefix_eqb_eq in E. rewrite E. cbn. repeat split; try reflexivity.
    + intros H. destruct (p_mhlen e =? -1) eqn:E2; [lia|reflexivity].
  - split; [discriminate|]. intros (H1 & H2 & H3 & H4). exfalso. enough (X : prefix_eqb (node_prefix n)
      (mkPrefix (if (codec =? RawCodec) && (p_version e =? 0) then 1 else p_version e) codec (p_mhtype e)
      (if p_mhlen e =? -1 then p_mhlen (node_prefix n) else p_mhlen e)) = true) by congruence.
    apply prefix_eqb_eq. destruct (node_prefix n) as [v c m h]. cbn in *. subst.
    f_equal. destruct (p_mhlen e =? -1) eqn:E2; [reflexivity|]. apply H3. lia.
Qed.

Lemma check_prefix_cases n codec p : check_prefix n codec p = Ok tt \/ check_prefix n codec p = Err EVerify.
Proof. unfold check_prefix. destruct (v_prefix p); [|auto]. destruct (prefix_eqb _ _); auto. Qed.

Lemma verify_leaf_iff n p : verify_leaf n p = Ok tt <->
  trickle_leaf (v_raw p) (prefix_expected (v_prefix p) (if v_raw p then RawCodec else DagProtobuf)) n.
Proof.
  unfold verify_leaf, trickle_leaf. destruct n as [q b|q b ls]; cbn [node_links].
  - replace (0 <? zlen (@nil link)) with false by reflexivity. destruct (v_raw p); cbn [rbind].
    + rewrite check_prefix_iff. cbn. split; [eauto|]. intros (q' & b' & E & H). injection E as <- <-. exact H.
    + split; [discriminate|]. intros (q' & b' & f & E & _). discriminate.
  - destruct ls as [|l ls].
    + replace (0 <? zlen (@nil link)) with false by reflexivity. destruct (FSNodeFromBytes b) as [f|e| |] eqn:Ef; cbn [rbind].
      * destruct (getType f =? TRaw) eqn:Et; cbn [negb].
        -- destruct (v_raw p); cbn [rbind].
           ++ split; [discriminate|]. intros (q' & b' & E & _). discriminate.
           ++ rewrite check_prefix_iff. cbn. split.
              ** intros H. exists q, b, f. repeat split; auto. lia.
              ** intros (q' & b' & f' & E & H & _). injection E as <- <-. exact H.
        -- cbn [rbind]. split; [discriminate|]. destruct (v_raw p).
           ++ intros (q' & b' & E & _). discriminate.
           ++ intros (q' & b' & f' & E & _ & H & Ht). injection E as <- <-. rewrite Ef in H. apply Ok_inj in H. subst. lia.
      * split; [discriminate|]. destruct (v_raw p).
        -- intros (q' & b' & E & _). discriminate.
        -- intros (q' & b' & f' & E & _ & H & Ht). injection E as <- <-. congruence.
      * split; [discriminate|]. destruct (v_raw p).
        -- intros (q' & b' & E & _). discriminate.
        -- intros (q' & b' & f' & E & _ & H & Ht). injection E as <- <-. congruence.
      * split; [discriminate|]. destruct (v_raw p).
        -- intros (q' & b' & E & _). discriminate.
        -- intros (q' & b' & f' & E & _ & H & Ht). injection E as <- <-. congruence.
    + replace (0 <? zlen (l :: ls)) with true by (rewrite zlen_cons; pose proof (zlen_nonneg ls); lia).
      split; [discriminate|]. destruct (v_raw p).
      * intros (q' & b' & E & _). discriminate.
      * intros (q' & b' & f' & E & _). discriminate.
Qed.

(** The loop over links, from link position [i]. *)
Definition vgo (w : world) (p : vparams) (depth : Z) :=
  fix go (i : Z) (ls : list (plink node)) {struct ls} : res unit :=
             match ls with
             | [] => Ok tt
             | l :: r =>
                 let? _ := dserv_get w (lto l) in
                 if i <? v_direct p then
                   let? _ := verifyTDagRec w p (lto l) 0 in go (i + 1) r
                 else if v_repeat p =? 0 then Panic
                 else
                   let rdepth := Z.quot (i - v_direct p) (v_repeat p) + 1 in
                   if (depth <=? rdepth) && (0 <? depth) then Err EVerify
                   else let? _ := verifyTDagRec w p (lto l) rdepth in go (i + 1) r
             end.

Lemma rbind_ok {A B} (r : res A) (f : A -> res B) b : rbind r f = Ok b <-> exists a, r = Ok a /\ f a = Ok b.
Proof. destruct r; cbn; split; try discriminate; try (intros (a' & H & _); discriminate); eauto. intros (a' & H & K). apply Ok_inj in H. now subst. Qed.

Lemma dserv_get_ok w n m : dserv_get w n = Ok m -> m = n.
Proof. unfold dserv_get. destruct (_ && _); congruence. Qed.

Lemma verify_iff w p : 0 < v_repeat p -> forall n D, D = -1 \/ 1 <= D ->
  (verifyTDagRec w p n D = Ok tt <->
   trickle_file (v_direct p) (v_repeat p) (v_raw p) (v_prefix p) D n /\ below_available w n).
Proof.
  intros Hr. induction n as [q b|q b ls IH] using node_ind'; intros D HD.
  - cbn [verifyTDagRec]. destruct (D =? 0) eqn:E0; [lia|]. split.
    + rewrite rbind_ok. intros (? & _ & H). discriminate.
    + intros [H _]. inversion H as [? ? (q' & b' & ls' & f & E & _)]. discriminate.
  - cbn [verifyTDagRec]. destruct (D =? 0) eqn:E0; [lia|]. fold (vgo w p D).
    assert (Hgo : forall ls0 i0, Forall (fun l => forall D, D = -1 \/ 1 <= D ->
         (verifyTDagRec w p (lto l) D = Ok tt <-> trickle_file (v_direct p) (v_repeat p) (v_raw p) (v_prefix p) D (lto l) /\ below_available w (lto l))) ls0 ->
       (vgo w p D (Z.of_nat i0) ls0 = Ok tt <->
        (forall i l, nth_error ls0 i = Some l -> dserv_get w (lto l) = Ok (lto l)) /\
        (forall i l, nth_error ls0 i = Some l -> Z.of_nat (i0 + i) < v_direct p ->
            trickle_leaf (v_raw p) (prefix_expected (v_prefix p) (if v_raw p then RawCodec else DagProtobuf)) (lto l)) /\
        (forall i l, nth_error ls0 i = Some l -> v_direct p <= Z.of_nat (i0 + i) -> D = -1 \/ layer (v_direct p) (v_repeat p) (i0 + i) < D) /\
        (forall i l, nth_error ls0 i = Some l -> v_direct p <= Z.of_nat (i0 + i) ->
            trickle_file (v_direct p) (v_repeat p) (v_raw p) (v_prefix p) (layer (v_direct p) (v_repeat p) (i0 + i)) (lto l) /\ below_available w (lto l)))).
    { induction ls0 as [|l ls0 IHl]; intros i0 HF.
      - cbn. split; [|reflexivity]. intros _. split; [|split; [|split]]; intros [|i] l H; discriminate.
      - inversion HF as [|? ? Hl HF']; subst. cbn [vgo]. fold (vgo w p D). specialize (IHl (S i0) HF').
        replace (Z.of_nat i0 + 1) with (Z.of_nat (S i0)) by lia.
        rewrite rbind_ok. destruct (Z.of_nat i0 <? v_direct p) eqn:Ed.
        + replace (verifyTDagRec w p (lto l) 0) with (verify_leaf (lto l) p) by (destruct (lto l); reflexivity).
          split.
          * intros (m & Hg & H). pose proof (dserv_get_ok _ _ _ Hg) as ->. apply rbind_ok in H as ([] & Hv & H). apply IHl in H as (A1 & A2 & A3 & A4).
            apply verify_leaf_iff in Hv. split; [|split; [|split]]; intros [|i] l' E; cbn in E; try (injection E as <-); try rewrite <- plus_n_Sm.
            -- exact Hg.
            -- eauto.
            -- auto.
            -- intros. apply (A2 i l'); auto.
            -- intros X. rewrite Nat.add_0_r in X. lia.
            -- intros. apply (A3 i l'); auto.
            -- intros X. rewrite Nat.add_0_r in X. lia.
            -- intros. apply (A4 i l'); auto.
          * intros (A1 & A2 & A3 & A4). exists (lto l). split; [apply (A1 0%nat l); reflexivity|]. apply rbind_ok. exists tt. split.
            -- apply verify_leaf_iff. apply (A2 0%nat l); [reflexivity|]. rewrite Nat.add_0_r. lia.
            -- apply IHl. split; [|split; [|split]]; intros i l' E.
               ++ apply (A1 (S i)). exact E.
               ++ replace (S i0 + i)%nat with (i0 + S i)%nat by lia. apply (A2 (S i)). exact E.
               ++ replace (S i0 + i)%nat with (i0 + S i)%nat by lia. apply (A3 (S i) l'). exact E.
               ++ replace (S i0 + i)%nat with (i0 + S i)%nat by lia. apply (A4 (S i) l'). exact E.
        + destruct (v_repeat p =? 0) eqn:Er; [lia|]. cbn zeta.
          assert (Eq : Z.quot (Z.of_nat i0 - v_direct p) (v_repeat p) + 1 = layer (v_direct p) (v_repeat p) (i0 + 0)).
          { unfold layer. rewrite Nat.add_0_r, Z.quot_div_nonneg by lia. reflexivity. }
          rewrite Eq. assert (Hpos : 1 <= layer (v_direct p) (v_repeat p) (i0 + 0)).
          { unfold layer. pose proof (Z.div_pos (Z.of_nat (i0 + 0) - v_direct p) (v_repeat p)). lia. }
          specialize (Hl (layer (v_direct p) (v_repeat p) (i0 + 0)) (or_intror Hpos)).
          split.
          * intros (m & Hg & H). pose proof (dserv_get_ok _ _ _ Hg) as ->.
            destruct ((D <=? layer (v_direct p) (v_repeat p) (i0 + 0)) && (0 <? D)) eqn:EE; [discriminate|].
            apply rbind_ok in H as ([] & Hv & H). apply IHl in H as (A1 & A2 & A3 & A4). apply Hl in Hv.
            split; [|split; [|split]]; intros [|i] l' E; cbn in E; try (injection E as <-); try rewrite <- plus_n_Sm.
            -- exact Hg.
            -- eauto.
            -- intros X. rewrite Nat.add_0_r in X. lia.
            -- intros. apply (A2 i l'); auto.
            -- intros _. clear - EE HD. lia.
            -- intros. apply (A3 i l'); auto.
            -- intros _. exact Hv.
            -- intros. apply (A4 i l'); auto.
          * intros (A1 & A2 & A3 & A4). exists (lto l). split; [apply (A1 0%nat l); reflexivity|].
            assert (Hd : v_direct p <= Z.of_nat (i0 + 0)) by lia.
            specialize (A3 0%nat l eq_refl Hd) as A30. specialize (A4 0%nat l eq_refl Hd) as A40.
            destruct ((D <=? layer (v_direct p) (v_repeat p) (i0 + 0)) && (0 <? D)) eqn:EE; [clear - EE A30; lia|].
            apply rbind_ok. exists tt. split; [apply Hl; exact A40|].
            apply IHl. split; [|split; [|split]]; intros i l' E.
               ++ apply (A1 (S i)). exact E.
               ++ replace (S i0 + i)%nat with (i0 + S i)%nat by lia. apply (A2 (S i)). exact E.
               ++ replace (S i0 + i)%nat with (i0 + S i)%nat by lia. apply (A3 (S i) l'). exact E.
               ++ replace (S i0 + i)%nat with (i0 + S i)%nat by lia. apply (A4 (S i) l'). exact E. }
    specialize (Hgo ls 0%nat IH). change (Z.of_nat 0) with 0 in Hgo. cbn [Nat.add] in Hgo.
    rewrite rbind_ok. split.
    + intros ([] & Hc & H). apply check_prefix_iff in Hc. cbn in Hc. apply rbind_ok in H as (f & Hf & H).
      destruct (getType f =? TFile) eqn:Et; [|discriminate]. cbn [negb] in H.
      destruct (0 <? zlen (getData f)) eqn:Ed; [discriminate|]. apply Hgo in H as (A1 & A2 & A3 & A4). split.
      * constructor; cbn [node_links].
        -- exists q, b, ls, f. repeat split; auto; [lia|]. apply zlen_0_nil. pose proof (zlen_nonneg (getData f)). lia.
        -- exact A2.
        -- exact A3.
        -- intros i l E Hi. apply A4; assumption.
      * intros l m Hl Hm. cbn [node_links] in Hl. apply In_nth_error in Hl as (i & Hi).
        inversion Hm; subst; [eauto|]. destruct (Z_lt_dec (Z.of_nat i) (v_direct p)) as [Hlt|Hge].
        -- specialize (A2 i l Hi Hlt). unfold trickle_leaf in A2. exfalso. destruct (v_raw p).
           ++ destruct A2 as (q' & b' & E & _). rewrite E in H. destruct H.
           ++ destruct A2 as (q' & b' & f' & E & _). rewrite E in H. destruct H.
        -- eapply (proj2 (A4 i l Hi ltac:(lia))); eassumption.
    + intros [H HA]. inversion H as [D' n' HI K1 K2 K3]; subst. destruct HI as (q' & b' & ls' & f & E & Hq & Hf & Ht & Hd). injection E as <- <- <-.
      exists tt. split; [apply check_prefix_iff; exact Hq|]. apply rbind_ok. exists f. split; [exact Hf|].
      rewrite Ht, Hd. cbn [node_links] in *. change (negb (TFile =? TFile)) with false. change (0 <? zlen (@nil byte)) with false. cbn iota.
      apply Hgo. split; [|split; [exact K1|split; [exact K2|]]].
      * intros i l Hi. apply (HA l); [eapply nth_error_In, Hi|constructor].
      * intros i l Hi Hle. split; [exact (K3 i l Hi Hle)|]. intros l' m Hl' Hm. apply (HA l); [eapply nth_error_In, Hi|]. econstructor; eassumption.
Qed.

(** ** The whole layout *)

Definition trickle_ok (c : bool * Z * option prefix * bool) (d d' : db) (root : node) : Prop :=
  exists chunks cs added, pend d = map EvData chunks /\ pend d' = [] /\
    file_dag root cs /\ (chunks = [] /\ cs = [[]] \/ cs = chunks) /\
    Forall (fun c => zlen c <= BlockSizeLimit) chunks /\
    w_added (db_w d') = w_added (db_w d) ++ added /\ all_in root added /\
    fs_entries added = entries d chunks /\ tsizes_exact root /\ (chunks <> [] -> uni d TRaw root) /\
    w_has (db_w d') = w_has (db_w d) /\ w_getok (db_w d') = w_getok (db_w d) /\
    trickle (snd (fst (fst c))) depthRepeat (leaf_of (fst (fst (fst c))) (snd (fst c)) TRaw) (is_inner c) (-1) root /\
    left_complete (snd (fst (fst c))) depthRepeat root.

Lemma Layout_spec c fuel d : 1 <= snd (fst (fst c)) -> cfg d = c -> 0 <= db_offset d < two64 -> (length (pend d) < fuel)%nat ->
  match Layout fuel d with
  | (Ok root, d') => trickle_ok c d d' root
  | (Err _, d') => ~ faultless d /\ wups (db_w d) (db_w d')
  | (Panic, _) => False
  | (Fuel, _) => False
  end.
Proof.
  intros Hk Hc Ho Hfu. unfold Layout, new_subtree, with_new, bind.
  pose proof (fill_spec c Hk fuel (-1) (NewFSNodeOverDag (db_builder d) TFile) d Hfu Hc eq_refl Ho (or_introl eq_refl)) as HF.
  destruct (fillTrickleRec fuel (-1) (NewFSNodeOverDag (db_builder d) TFile, d)) as [[u|e| |] [n d1]]; cbn [gpost] in HF; auto.
  destruct HF as (css & a & G & K1 & Kc & Kcm & Kcss & _ & Kp).
  assert (Hp1 : pend d1 = []).
  { destruct (pend d1) eqn:E; [reflexivity|]. destruct (Kp ltac:(discriminate)) as [X _]. congruence. }
  assert (Hg : good_data (f_file n)) by (eapply grown_new_good; [reflexivity|left; reflexivity|exact G]).
  assert (Hdec : FSNodeFromBytes (f_bytes n) = Ok (f_file n)) by (eapply unmarshal_marshal; [exact Hg|exact Kcm]).
  assert (Hty : getType (f_file n) = TFile) by (unfold getType; rewrite (gr_type _ _ _ _ _ _ G); reflexivity).
  assert (Hda : getData (f_file n) = []) by (unfold getData; rewrite (gr_data _ _ _ _ _ _ G); reflexivity).
  assert (Hpre : f_prefix n = proto_prefix (snd (fst c))).
  { rewrite (gr_prefix _ _ _ _ _ _ G). cbn. f_equal. now apply cfg_bu. }
  destruct (gr_links _ _ _ _ _ _ G) as (ls & El & U & F & X & A). cbn in El.
  pose proof (gr_step _ _ _ _ _ _ G) as Hs.
  assert (Hdag : exists cs, file_dag (GetDagNode n) cs /\ (concat css = [] /\ cs = [[]] \/ cs = concat css)).
  { destruct css as [|c0 css].
    - inversion F as [E|]. destruct ls; [|discriminate]. exists [getData (f_file n)]. split; [|left; rewrite Hda; auto].
      unfold GetDagNode. rewrite El. econstructor; eauto.
      + rewrite (gr_blocks _ _ _ _ _ _ G). reflexivity.
      + rewrite (gr_size _ _ _ _ _ _ G), Hda. reflexivity.
    - exists (concat (c0 :: css)). split; [|auto]. apply (new_made d n d1 (c0 :: css) a G Kcm ltac:(discriminate)). }
  destruct Hdag as (cs & Hdag & Hcs).
  assert (Hbel : below_in (GetDagNode n) a).
  { unfold below_in. cbn [GetDagNode node_links]. rewrite El. exact A. }
  cbn [fst snd]. unfold Add, dserv_add. cbn [fst snd]. rewrite (file_dag_seal _ _ Hdag).
  destruct (w_addok _ _) eqn:Ea.
  - unfold ret. exists (concat css), cs, (a ++ [(GetDagNode n, None)]).
    split; [rewrite (st_pend _ _ _ _ Hs), Hp1; apply app_nil_r|].
    split; [exact Hp1|]. split; [exact Hdag|]. split; [exact Hcs|]. split; [apply G|].
    split; [cbn; rewrite (st_added _ _ _ _ Hs), app_assoc; reflexivity|].
    split; [now apply below_all|].
    split; [rewrite fs_entries_app; cbn; rewrite app_nil_r; apply G|].
    split; [apply tsizes_node; cbn; rewrite El; exact X|].
    destruct K1 as (T1 & T2 & T3 & T4 & T5 & T6).
    split.
    { intros Hne. apply uni_node.
      - rewrite Hpre. f_equal. rewrite <- Hc. reflexivity.
      - intros E. rewrite E in El. subst ls. inversion F. subst. now apply Hne.
      - eapply Forall_impl; [|exact T6]. intros l. apply uni_cfg. congruence. }
    split; [apply Hs|]. split; [apply Hs|]. split.
    + constructor; cbn [GetDagNode node_links].
      * unfold GetDagNode. rewrite Hpre. exists (f_bytes n), (f_links n), (f_file n). auto.
      * exact T2.
      * auto.
      * exact T3.
    + constructor; cbn [GetDagNode node_links].
      * intros i l Hn Hi Hlt. apply T4; auto.
      * intros i l Hn Hi _. eapply T5; eassumption.
  - split.
    + intros [_ FF]. rewrite (st_addok _ _ _ _ Hs), FF in Ea. discriminate.
    + eapply wups_trans; [eapply grown_wups, G|]. now apply wups_same.
Qed.

(** ** A link limit below one: no progress *)

Section Stuck.
  Definition q_inv (d d' : db) : Prop := pend d' = pend d /\ db_maxlinks d' = db_maxlinks d /\ w_addok (db_w d') = w_addok (db_w d).
  Definition q_post {A} (d : db) (r : res A * (fsn * db)) : Prop :=
    match r with
    | (Ok _, (n, d')) => q_inv d d' /\ d_type (f_file n) <> None
    | (Err _, _) => ~ faultless d
    | (Panic, _) => False
    | (Fuel, _) => True
    end.

  Lemma q_trans a b c : q_inv a b -> q_inv b c -> q_inv a c.
  Proof. unfold q_inv. intuition congruence. Qed.
  Lemma q_faultless a b : q_inv a b -> faultless a -> faultless b.
  Proof. intros (H1 & _ & H2) [K1 K2]. split; [now rewrite H1|]. intros k. now rewrite H2. Qed.

  Lemma q_bind {A B} d (r : res A * (fsn * db)) (k : A -> M (fsn * db) B) : q_post d r ->
    (forall a n d', q_inv d d' -> d_type (f_file n) <> None -> q_post d' (k a (n, d'))) ->
    q_post d (match r with (Ok a, s) => k a s | (Err e, s) => (Err e, s) | (Panic, s) => (Panic, s) | (Fuel, s) => (Fuel, s) end).
  Proof.
    destruct r as [[a|e| |] [n d1]]; cbn; auto. intros [Hq Ht] K. specialize (K a n d1 Hq Ht).
    destruct (k a (n, d1)) as [[b|e| |] [n2 d2]]; cbn in *; auto.
    - destruct K as [K1 K2]. split; [eapply q_trans; eassumption|assumption].
    - intros F. apply K. eapply q_faultless; eassumption.
  Qed.

  Lemma q_commit n d : d_type (f_file n) <> None -> q_post d (commit (n, d)).
  Proof.
    intros Ht. unfold commit, Commit. cbn [fst snd]. destruct (must_marshal_ok (f_file n) Ht) as (b & _ & Hb).
    unfold GetBytes. rewrite Hb. cbn. repeat split. exact Ht.
  Qed.

  Lemma q_done n d : d_type (f_file n) <> None -> q_post d (on_db Done (n, d)).
  Proof.
    intros Ht. unfold on_db. cbn [snd fst]. rewrite Done_spec. cbn. split; [|assumption].
    split; [apply pend_prepare|]. unfold prepareNext. destruct (db_next d), (db_err d), (db_spl d) as [|[] ?]; split; reflexivity.
  Qed.

  Lemma q_layer n d : db_maxlinks d <= 0 -> d_type (f_file n) <> None -> q_post d (FillNodeLayer (n, d)).
  Proof.
    intros Hm Ht. unfold FillNodeLayer, bind.
    assert (E : fill_loop (NewLeafDataNode TRaw) (room (n, d)) (n, d) = (Ok tt, (n, d))).
    { destruct (room (n, d)); cbn [fill_loop fst snd]; replace (fNumChildren n <? db_maxlinks d) with false; try reflexivity;
      pose proof (zlen_nonneg (d_blocksizes (f_file n))); unfold fNumChildren, NumChildren; lia. }
    rewrite E. apply q_commit. exact Ht.
  Qed.

  Definition q_mk (mk : M db (xnode * Z)) : Prop := forall d, db_maxlinks d <= 0 ->
    match mk d with (Ok _, d') => q_inv d d' | (Err _, _) => ~ faultless d | (Panic, _) => False | (Fuel, _) => True end.

  Lemma q_on_db mk n d : q_mk mk -> db_maxlinks d <= 0 -> d_type (f_file n) <> None -> q_post d (on_db mk (n, d)).
  Proof. intros H Hm Ht. specialize (H d Hm). unfold on_db. cbn [fst snd]. destruct (mk d) as [[] d']; cbn; auto. Qed.

  Lemma q_AddChild x sz n d : d_type (f_file n) <> None -> q_post d (AddChild x sz (n, d)).
  Proof.
    intros Ht. unfold AddChild, Add, dserv_add. destruct (w_addok _ _) eqn:E; cbn.
    - repeat split. exact Ht.
    - intros [_ F]. congruence.
  Qed.

  Lemma q_children mk : q_mk mk -> forall m n d, db_maxlinks d <= 0 -> d_type (f_file n) <> None -> q_post d (add_children mk m (n, d)).
  Proof.
    intros Hmk. induction m as [|m IH]; intros n d Hm Ht; cbn [add_children].
    - cbn. repeat split. exact Ht.
    - apply (q_bind d _ (fun b : bool => if b then ret tt else _)); [now apply q_done|].
      intros b n1 d1 (Q1 & Q2 & Q3) Ht1. destruct b; [cbn; repeat split; exact Ht1|].
      apply (q_bind d1 _ (fun p => do _ <- AddChild (fst p) (snd p) ;; add_children mk m)); [apply q_on_db; auto; lia|].
      intros p n2 d2 (R1 & R2 & R3) Ht2. apply (q_bind d2 _ (fun _ => add_children mk m)); [now apply q_AddChild|].
      intros _ n3 d3 (S1 & S2 & S3) Ht3. apply IH; [lia|assumption].
  Qed.

  Lemma q_depth fill D : (forall j, q_mk (fill j)) -> forall fuel j n d, db_maxlinks d <= 0 -> d_type (f_file n) <> None ->
    q_post d (depth_loop fill fuel j D (n, d)) /\ (D = -1 -> pend d <> [] -> forall r, fst (depth_loop fill fuel j D (n, d)) <> Ok r).
  Proof.
    intros Hmk. induction fuel as [|fuel IH]; intros j n d Hm Ht; cbn [depth_loop];
      destruct ((D =? -1) || (j <? D)) eqn:E; try (split; [cbn; repeat split; exact Ht|intros ->; discriminate]).
    - split.
      + apply (q_bind d _ (fun b : bool => if b then ret tt else _)); [now apply q_done|].
        intros b n1 d1 (Q1 & Q2 & Q3) Ht1. destruct b; [cbn; repeat split; exact Ht1|].
        apply (q_bind d1 _ (fun _ => lift Fuel)); [apply q_children; auto; lia|]. cbn. auto.
      + intros _ Hp r. unfold bind at 1, on_db at 1. cbn [snd]. rewrite Done_spec. destruct (pend d); [congruence|]. cbn [fst].
        unfold bind. destruct (add_children _ _ _) as [[] ?]; discriminate.
    - split.
      + apply (q_bind d _ (fun b : bool => if b then ret tt else _)); [now apply q_done|].
        intros b n1 d1 (Q1 & Q2 & Q3) Ht1. destruct b; [cbn; repeat split; exact Ht1|].
        apply (q_bind d1 _ (fun _ => depth_loop fill fuel (j + 1) D)); [apply q_children; auto; lia|].
        intros _ n2 d2 (R1 & R2 & R3) Ht2. apply IH; [lia|assumption].
      + intros HD Hp r. pose proof (q_done n d Ht) as Hd. unfold bind at 1. destruct (on_db Done (n, d)) as [[b|e| |] [n1 d1]] eqn:Ed; try discriminate.
        destruct Hd as [(Q1 & Q2 & Q3) Ht1]. assert (b = false) as ->.
        { unfold on_db in Ed. cbn [snd] in Ed. rewrite Done_spec in Ed. destruct (pend d); [congruence|]. congruence. }
        unfold bind. pose proof (q_children (fill j) (Hmk j) (Z.to_nat depthRepeat) n1 d1 ltac:(lia) Ht1) as Hch.
        destruct (add_children (fill j) (Z.to_nat depthRepeat) (n1, d1)) as [[u|e| |] [n2 d2]]; try discriminate.
        destruct Hch as [(R1 & R2 & R3) Ht2]. apply IH; auto; [lia|]. congruence.
  Qed.

  Lemma q_with_new n m : (forall d, db_maxlinks d <= 0 -> q_post d (m (n d, d))) -> q_mk (fun b => with_new (n b) m b).
  Proof.
    intros H d Hm. specialize (H d Hm). unfold with_new. destruct (m (n d, d)) as [[] [n' d']]; cbn in *; tauto.
  Qed.

  Lemma q_fill fuel : forall D n d, db_maxlinks d <= 0 -> d_type (f_file n) <> None ->
    q_post d (fillTrickleRec fuel D (n, d)) /\ (D = -1 -> pend d <> [] -> forall r, fst (fillTrickleRec fuel D (n, d)) <> Ok r).
  Proof.
    induction fuel as [|fuel IH]; intros D n d Hm Ht; cbn [fillTrickleRec]; [split; [exact I|discriminate]|].
    set (fill := fun depth b => with_new _ _ b).
    assert (Hf : forall j, q_mk (fill j)).
    { intros j. apply q_with_new. intros d' Hm'. apply IH; [assumption|discriminate]. }
    split.
    - apply (q_bind d _ (fun _ => _)); [now apply q_layer|].
      intros _ n1 d1 (Q1 & Q2 & Q3) Ht1. apply (q_bind d1 _ (fun _ => commit)); [apply q_depth; auto; lia|].
      intros _ n2 d2 _ Ht2. now apply q_commit.
    - intros HD Hp r. unfold bind. pose proof (q_layer n d Hm Ht) as Hl.
      destruct (FillNodeLayer (n, d)) as [[u|e| |] [n1 d1]]; try discriminate. destruct Hl as [(Q1 & Q2 & Q3) Ht1].
      destruct (q_depth fill D Hf fuel 1 n1 d1 ltac:(lia) Ht1) as [_ K]. specialize (K HD ltac:(congruence)).
      destruct (depth_loop fill fuel 1 D (n1, d1)) as [[u2|e| |] s2]; try discriminate. cbn in K. congruence.
  Qed.

  Lemma Layout_stuck fuel d : db_maxlinks d <= 0 -> pend d <> [] -> faultless d -> fst (Layout fuel d) = Fuel.
  Proof.
    intros Hm Hp Hf. unfold Layout, bind, new_subtree, with_new.
    destruct (q_fill fuel (-1) (NewFSNodeOverDag (db_builder d) TFile) d Hm ltac:(discriminate)) as [H1 H2].
    specialize (H2 eq_refl Hp).
    destruct (fillTrickleRec fuel (-1) _) as [[u|e| |] [n d1]]; cbn in *; try tauto. now destruct (H2 u).
  Qed.
End Stuck.
