(** Lemmas about the balanced layout. *)
From Verif Require Import Base Pb PbProofs FSNode FSNodeProofs Dag DagProofs Builder Balanced SpecFile BuilderProofs.

(** ** Shapes *)

Lemma perfect_left_full k d : 1 <= k -> forall n, perfect k d n -> left_full k d n.
Proof.
  intros Hk. induction d as [|d IH]; intros n H; [exact H|]. destruct H as [H1 H2].
  destruct (exists_last (l := node_links n)) as (ls & l & E).
  { intros E. rewrite E, zlen_nil in H1. lia. }
  exists ls, l. rewrite E in *. apply Forall_app in H2 as [H2 H3]. inversion H3; subst.
  repeat split; auto. lia.
Qed.

Lemma left_full_balanced k d : 1 <= k -> forall n, left_full k d n -> balanced k d n.
Proof.
  intros Hk. induction d as [|d IH]; intros n H; [exact H|]. destruct H as (ls & l & E & H1 & H2 & H3).
  cbn [balanced]. rewrite E. split; [intros X; now apply app_eq_nil in X|]. split; [assumption|].
  apply Forall_app. split; [|constructor; auto].
  eapply Forall_impl; [|exact H2]. intros x Hx. apply IH. now apply perfect_left_full.
Qed.

Lemma file_dag_links n cs : file_dag n cs -> node_links n = [] \/
  exists css, Forall2 file_dag (map lto (node_links n)) css /\ cs = concat css.
Proof. destruct 1; cbn; eauto. Qed.

Lemma file_dag_leaf n cs : file_dag n cs -> node_links n = [] -> length cs = 1%nat.
Proof. destruct 1; cbn; intros E; try reflexivity. contradiction. Qed.

Lemma zlen_map {A B} (f : A -> B) l : zlen (map f l) = zlen l.
Proof. unfold zlen. now rewrite map_length. Qed.

Lemma length_concat_const {A B} (R : A -> list B -> Prop) (l : list A) css c :
  Forall2 R l css -> (forall x y, In x l -> R x y -> Z.of_nat (length y) = c) -> zlen (concat css) = zlen l * c.
Proof.
  induction 1 as [|x y l css Hxy H IH]; intros K; cbn [concat].
  - unfold zlen; cbn [length]; lia.
  - rewrite zlen_app, zlen_cons. rewrite IH by (intros; eapply K; [right|]; eassumption).
    rewrite <- (K x y); [|now left|assumption]. unfold zlen. lia.
Qed.

Lemma perfect_count k d : 1 <= k -> forall n cs, file_dag n cs -> perfect k d n -> zlen cs = k ^ Z.of_nat d.
Proof.
  intros Hk. induction d as [|d IH]; intros n cs Hf Hp.
  - unfold zlen. rewrite (file_dag_leaf n cs Hf Hp). reflexivity.
  - destruct Hp as [H1 H2]. destruct (file_dag_links n cs Hf) as [E|(css & F & ->)].
    { rewrite E, zlen_nil in H1. lia. }
    rewrite (length_concat_const file_dag (map lto (node_links n)) css (k ^ Z.of_nat d)).
    + rewrite zlen_map. rewrite H1.
      rewrite Nat2Z.inj_succ, Z.pow_succ_r by lia. reflexivity.
    + exact F.
    + intros x y Hx Hxy. apply in_map_iff in Hx as (l & <- & Hl). rewrite Forall_forall in H2.
      apply (IH (lto l) y); auto.
Qed.

Lemma Forall2_app_l {A B} (R : A -> B -> Prop) a b c : Forall2 R (a ++ b) c ->
  exists c1 c2, c = c1 ++ c2 /\ Forall2 R a c1 /\ Forall2 R b c2.
Proof.
  intros H. apply Forall2_app_inv_l in H as (c1 & c2 & H1 & H2 & ->). eauto.
Qed.

Lemma left_full_count k d : 1 <= k -> forall n cs, file_dag n cs -> left_full k d n -> zlen cs <= k ^ Z.of_nat d.
Proof.
  intros Hk. induction d as [|d IH]; intros n cs Hf Hp.
  - unfold zlen. rewrite (file_dag_leaf n cs Hf Hp). cbn. lia.
  - destruct Hp as (ls & l & E & H1 & H2 & H3). destruct (file_dag_links n cs Hf) as [E0|(css & F & ->)].
    { rewrite E0 in E. symmetry in E. apply app_eq_nil in E as [_ E]. discriminate. }
    rewrite E, map_app in F. apply Forall2_app_l in F as (c1 & c2 & -> & F1 & F2).
    cbn [map] in F2. inversion F2 as [|? y ? ? Hy F3]; subst. inversion F3; subst.
    rewrite concat_app, zlen_app. cbn [concat]. rewrite app_nil_r.
    rewrite (length_concat_const file_dag (map lto ls) c1 (k ^ Z.of_nat d) F1).
    + specialize (IH _ _ Hy H3). rewrite zlen_app, zlen_cons, zlen_nil in H1.
      rewrite zlen_map.
      rewrite Nat2Z.inj_succ, Z.pow_succ_r by lia. pose proof (Z.pow_nonneg k (Z.of_nat d)). nia.
    + intros x z Hx Hxz. apply in_map_iff in Hx as (l' & <- & Hl). rewrite Forall_forall in H2.
      apply (perfect_count k d Hk (lto l') z); auto.
Qed.

(** ** fillNodeRec *)

Section Fill.
  Variable c : bool * Z * option prefix * bool.
  Let k := snd (fst (fst c)).
  Let okpre (d : db) (n : node) : Prop := uni d TFile n.

  (** The invariant of the children of a node whose children have depth [d]. *)
  Definition kids (dp : nat) (n : fsn) (_ : list (list bytes)) (d : db) : Prop :=
    zlen (f_links n) = fNumChildren n /\ fNumChildren n <= k /\
    Forall (fun l => uni d TFile (lto l)) (f_links n) /\
    (Forall (fun l => perfect k dp (lto l)) (f_links n) \/
     (pend d = [] /\ exists ls l, f_links n = ls ++ [l] /\ Forall (fun l => perfect k dp (lto l)) ls /\
        left_full k dp (lto l))).

  (** A finished tree of depth [dp]. *)
  Definition tree (dp : nat) (x : node) (cs : list bytes) (d : db) : Prop :=
    seal x = x /\ uni d TFile x /\ left_full k dp x /\ (pend d <> [] -> perfect k dp x).

  Lemma kids_quiet dp n css d d' : kids dp n css d -> pend d' = pend d -> cfg d' = cfg d -> kids dp n css d'.
  Proof.
    intros (H1 & H2 & H3 & H4) E Ec. split; [assumption|]. split; [assumption|]. split.
    - eapply Forall_impl; [|exact H3]. intros l. now apply uni_cfg.
    - rewrite E. exact H4.
  Qed.

  Lemma kids_step dp n css d x sz cs d1 d2 : kids dp n css d -> cfg d1 = cfg d -> fNumChildren n < k -> pend d <> [] ->
    tree dp x cs d1 -> pend d2 = pend d1 -> cfg d2 = cfg d -> kids dp (with_child n x sz) (css ++ [cs]) d2.
  Proof.
    intros (H1 & H2 & H3 & H4) Ec1 Hn Hp (T1 & T2 & T3 & T4) Ep Ec. unfold kids. rewrite fNum_child.
    unfold with_child. cbn [f_links]. unfold make_link. rewrite T1.
    split; [rewrite zlen_app, zlen_cons, zlen_nil; lia|]. split; [lia|]. split.
    - apply Forall_app. split.
      + eapply Forall_impl; [|exact H3]. intros l. now apply uni_cfg.
      + constructor; [|constructor]. cbn [lto]. eapply uni_cfg; [|exact T2]. congruence.
    - destruct H4 as [H4|[H4 _]]; [|congruence]. destruct (pend d1) as [|e r] eqn:E1.
      + right. split; [assumption|]. eexists _, _. split; [reflexivity|]. auto.
      + left. apply Forall_app. split; [assumption|]. constructor; [|constructor]. apply T4. discriminate.
  Qed.

  Lemma kids_done dp n css d b : 1 <= k -> kids dp n css d -> f_links n <> [] -> k <= fNumChildren n \/ pend d = [] ->
    f_prefix n = proto_prefix (db_builder d) ->
    left_full k (S dp) (NProto (f_prefix n) b (f_links n)) /\
    (pend d <> [] -> perfect k (S dp) (NProto (f_prefix n) b (f_links n))) /\
    uni d TFile (NProto (f_prefix n) b (f_links n)).
  Proof.
    intros Hk (H1 & H2 & H3 & H4) Hl Hd Hpre. split; [|split].
    - cbn [left_full node_links]. destruct H4 as [H4|(_ & ls & l & E & H4 & H5)].
      + destruct (exists_last Hl) as (ls & l & E). exists ls, l. rewrite E in *.
        apply Forall_app in H4 as [H4 H5]. inversion H5; subst.
        split; [reflexivity|]. split; [lia|]. split; [assumption|]. now apply perfect_left_full.
      + exists ls, l. rewrite E in *. split; [reflexivity|]. split; [lia|]. auto.
    - intros Hp. cbn [perfect node_links]. destruct H4 as [H4|[H4 _]]; [|congruence].
      destruct Hd as [Hd|Hd]; [|congruence]. split; [lia|assumption].
    - apply uni_node; auto.
  Qed.

  Lemma leaf_mk L : mk_ok c (fun x cs d1 => tree 0 x cs d1 /\ cfg d1 = c) (NewLeafDataNode TFile) L.
  Proof.
    intros d Hc Ho Hp _. eapply mk_post_weaken; [apply leaf_made; auto; now left|].
    cbn beta. intros x sz cs d' a Hm [Hl _]. split.
    - split; [eapply file_dag_seal, Hm|]. pose proof (leaf_of_links _ _ _ _ Hl) as E.
      split; [|split; intros; exact E].
      eapply uni_cfg; [eapply cfg_step, Hm|]. apply (uni_leaf d TFile). exact Hl.
    - rewrite (cfg_step _ _ _ _ (md_step _ _ _ _ _ _ Hm)). exact Hc.
  Qed.

  Definition fill_mk (d : nat) : M db (xnode * Z) :=
    match d with
    | O => NewLeafDataNode TFile
    | S _ => fun b => with_new (NewFSNodeOverDag (db_builder b) TFile) (fillNodeRec d) b
    end.

  Lemma fill_spec_gen dp : 1 <= k ->
    (forall L, mk_ok c (fun x cs d1 => tree dp x cs d1 /\ cfg d1 = c) (fill_mk dp) L) ->
    forall n d css0, cfg d = c -> file_ok (f_file n) -> d_type (f_file n) <> None -> 0 <= db_offset d < two64 ->
    f_prefix n = proto_prefix (db_builder d) -> kids dp n css0 d -> f_links n <> [] \/ pend d <> [] ->
    gpost n d (fun n' d' css => committed n' /\ left_full k (S dp) (GetDagNode n') /\
        (pend d' <> [] -> perfect k (S dp) (GetDagNode n')) /\ uni d' TFile (GetDagNode n') /\
        kids dp n' (css0 ++ css) d' /\ (fNumChildren n < k -> pend d <> [] -> css <> []))
      (fillNodeRec (S dp) (n, d)).
  Proof.
    intros Hk Hmk n d css0 Hc Hf Ht Ho Hpre Hi Hne. cbn [fillNodeRec]. fold (fill_mk dp).
    eapply gpost_seq.
    - eapply (fill_loop_rule c (fun x cs d1 => tree dp x cs d1 /\ cfg d1 = c) (fill_mk dp)
               (fun n css d => kids dp n css d /\ cfg d = c)).
      + intros n1 css d1 x sz cs d2 d3 [K1 K2] Hlt Hp [T1 T2] Hq Hq2. split; [|congruence].
        apply (kids_step dp n1 css d1 x sz cs d2 d3); auto.
        * congruence.
        * unfold cfg in K2. unfold k. rewrite <- K2. exact Hlt.
      + intros n1 css d1 d2 [K1 K2] E Ec. split; [|congruence]. eapply kids_quiet; eauto.
      + reflexivity.
      + apply Hmk.
      + exact Hc.
      + exact Hf.
      + exact Ho.
      + split; [exact Hi|exact Hc].
    - intros n1 d1 css a G [[K Kc] Hd]. apply commit_spec.
      + eapply grown_file_ok, G.
      + eapply db_step_off, G.
      + rewrite (gr_type _ _ _ _ _ _ G). exact Ht.
      + intros b Hb. set (n2 := mkFsn _ _ _ _). rewrite app_nil_r. split; [exact Hb|].
        assert (Hne1 : f_links n1 <> []).
        { destruct K as (K1 & K2 & _). intros E. destruct (gr_links _ _ _ _ _ _ G) as (ls & El & _).
          rewrite E in El. symmetry in El. apply app_eq_nil in El as [El _]. destruct Hne as [Hne|Hne]; [congruence|].
          destruct Hd as [Hd|Hd].
          - rewrite E, zlen_nil in K1. unfold k in Hk. rewrite <- Kc in Hk. cbn in Hk. lia.
          - destruct css as [|c0 css].
            + rewrite (st_pend _ _ _ _ (gr_step _ _ _ _ _ _ G)), Hd in Hne. now apply Hne.
            + destruct (gr_links _ _ _ _ _ _ G) as (ls' & El' & _ & F & _). rewrite E, El in El'. cbn in El'. subst ls'. inversion F. }
        destruct (kids_done dp n1 (css0 ++ css) d1 b) as (D1 & D2 & D3); auto.
        * destruct Hd as [Hd|Hd]; [left|now right]. unfold k. rewrite <- Kc. exact Hd.
        * rewrite (gr_prefix _ _ _ _ _ _ G), Hpre.
          assert (db_builder d1 = db_builder d) by apply G. congruence.
        * split; [exact D1|]. split; [exact D2|]. split; [exact D3|]. split; [exact K|].
          intros Hlt Hp. intros ->. destruct Hd as [Hd|Hd].
          -- assert (E : fNumChildren n1 = fNumChildren n).
             { unfold fNumChildren, NumChildren. rewrite (gr_blocks _ _ _ _ _ _ G). cbn. now rewrite app_nil_r. }
             unfold cfg in Kc. unfold k in Hlt. rewrite <- Kc in Hlt. cbn in Hlt. lia.
          -- rewrite (st_pend _ _ _ _ (gr_step _ _ _ _ _ _ G)), Hd in Hp. now apply Hp.
  Qed.

  Lemma kids_new dp d : 1 <= k -> kids dp (NewFSNodeOverDag (db_builder d) TFile) [] d.
  Proof. intros Hk. unfold kids. split; [reflexivity|]. split; [unfold fNumChildren, NumChildren; cbn; unfold zlen; cbn; lia|].
    split; [constructor|]. left. constructor. Qed.

  Lemma new_file_ok b t : file_ok (f_file (NewFSNodeOverDag b t)).
  Proof. exists 0. split; [reflexivity|]. split; reflexivity || lia. Qed.

  Lemma fill_mk_ok dp : 1 <= k -> forall L, mk_ok c (fun x cs d1 => tree dp x cs d1 /\ cfg d1 = c) (fill_mk dp) L.
  Proof.
    intros Hk. induction dp as [|dp IH]; intros L; [apply leaf_mk|].
    intros d Hc Ho Hp _. unfold fill_mk. eapply mk_post_weaken.
    - apply (with_new_made d (fillNodeRec (S dp)) (fun n d1 css => left_full k (S dp) (GetDagNode n) /\
          (pend d1 <> [] -> perfect k (S dp) (GetDagNode n)) /\ uni d1 TFile (GetDagNode n))). eapply gpost_weaken.
      + apply (fill_spec_gen dp Hk IH _ _ []); auto.
        * apply new_file_ok.
        * discriminate.
        * now apply kids_new.
      + cbn beta. intros n d1 css a G (H1 & H2 & H3 & H4 & H5 & H6).
        assert (css <> []) by (apply H6; [change (0 < k); lia|assumption]).
        auto.
    - cbn beta. intros x sz cs d1 a Hm (n & css & a' & En & E & G & (H2 & H3 & H4) & _). split.
      + split; [eapply file_dag_seal, Hm|]. rewrite En. auto.
      + rewrite (cfg_step _ _ _ _ (md_step _ _ _ _ _ _ Hm)). exact Hc.
  Qed.

  Lemma fillNodeRec_spec dp n d css0 : 1 <= k -> cfg d = c -> file_ok (f_file n) -> d_type (f_file n) <> None ->
    0 <= db_offset d < two64 ->
    f_prefix n = proto_prefix (db_builder d) -> kids dp n css0 d -> f_links n <> [] \/ pend d <> [] ->
    gpost n d (fun n' d' css => committed n' /\ left_full k (S dp) (GetDagNode n') /\
        (pend d' <> [] -> perfect k (S dp) (GetDagNode n')) /\ uni d' TFile (GetDagNode n') /\
        kids dp n' (css0 ++ css) d' /\ (fNumChildren n < k -> pend d <> [] -> css <> []))
      (fillNodeRec (S dp) (n, d)).
  Proof. intros Hk. apply fill_spec_gen; [assumption|]. now apply fill_mk_ok. Qed.
End Fill.

(** ** Layout *)

Section Layout.
  Variable c : bool * Z * option prefix * bool.
  Let k := snd (fst (fst c)).

  (** What a finished root is. *)
  Definition root_ok (d d' : db) (x : xnode) (sz : Z) (cs : list bytes) (added : list xnode) : Prop :=
    made d d' x sz cs added /\ uni d TFile (fst x) /\
    exists dp, left_full k dp (fst x) /\ (pend d' <> [] -> perfect k dp (fst x)) /\ (1 <= Z.of_nat dp -> k ^ (Z.of_nat dp - 1) < zlen cs).

  (** Making the next root over the current one. *)
  Lemma wrap_spec d0 d dp x sz cs a : 2 <= k -> cfg d0 = c -> made d0 d x sz cs a -> pend d <> [] ->
    left_full k dp (fst x) -> perfect k dp (fst x) -> uni d0 TFile (fst x) ->
    match with_new (NewFSNodeOverDag (db_builder d) TFile) (do _ <- AddChild x sz ;; fillNodeRec (S dp)) d with
    | (Ok (y, sz'), d') => exists cs' a', made d0 d' y sz' cs' a' /\ uni d0 TFile (fst y) /\ (length (pend d') < length (pend d))%nat /\
        left_full k (S dp) (fst y) /\ (pend d' <> [] -> perfect k (S dp) (fst y)) /\ k ^ (Z.of_nat dp) < zlen cs'
    | (Err _, d') => ~ faultless d0 /\ wups (db_w d0) (db_w d')
    | _ => False
    end.
  Proof.
    intros Hk Hc Hm Hp HL HPf HU. pose proof (md_step _ _ _ _ _ _ Hm) as Hs.
    assert (Hc1 : cfg d = c) by (rewrite (cfg_step _ _ _ _ Hs); assumption).
    assert (Hb : db_builder d = db_builder d0) by apply Hs.
    rewrite Hb. set (n0 := NewFSNodeOverDag (db_builder d0) TFile).
    unfold with_new, bind.
    destruct (AddChild_spec n0 d0 d x sz cs a (st_offr _ _ _ _ Hs) Hm) as [(d1 & -> & G & Ep)|(d1 & -> & G)]; [|exact G].
    set (n1 := with_child n0 (fst x) sz) in *.
    pose proof (file_dag_seal _ _ (md_dag _ _ _ _ _ _ Hm)) as Hseal.
    assert (Hc2 : cfg d1 = c) by (rewrite (cfg_step _ _ _ _ (gr_step _ _ _ _ _ _ G)); assumption).
    assert (HF : gpost n1 d1 (fun n' d' css => committed n' /\ left_full k (S dp) (GetDagNode n') /\
        (pend d' <> [] -> perfect k (S dp) (GetDagNode n')) /\ uni d' TFile (GetDagNode n') /\
        kids c dp n' ([cs] ++ css) d' /\ (fNumChildren n1 < k -> pend d1 <> [] -> css <> [])) (fillNodeRec (S dp) (n1, d1))).
    { apply (fillNodeRec_spec c dp n1 d1 [cs]); auto.
      - fold k. lia.
      - eapply grown_file_ok, G.
      - discriminate.
      - eapply db_step_off, G.
      - cbn. rewrite (st_builder _ _ _ _ (gr_step _ _ _ _ _ _ G)). reflexivity.
      - unfold n1, with_child, kids. cbn [f_links]. cbn [n0 NewFSNodeOverDag f_links app]. unfold make_link. rewrite Hseal.
        split; [reflexivity|]. split; [fold k; change (1 <= k); lia|]. split.
        + constructor; [|constructor]. eapply uni_cfg; [|exact HU]. congruence.
        + left. constructor; [|constructor]. exact HPf.
      - left. discriminate. }
    destruct (fillNodeRec (S dp) (n1, d1)) as [[u|e| |] [n' d']]; cbn [gpost] in HF.
    - destruct HF as (css & a2 & G2 & Hcm & H1 & H2 & H3 & H4 & H5).
      pose proof (grown_trans _ _ _ _ _ _ _ _ _ _ G G2) as GG.
      assert (Hne : css <> []).
      { apply H5; [|congruence]. unfold n1. rewrite fNum_child. change (0 + 1 < k). lia. }
      assert (MM : made d0 d' (GetDagNode n', None) (fFileSize n') (concat ([cs] ++ css)) ((a ++ [x]) ++ a2)).
      { apply new_made; [exact GG|exact Hcm|discriminate]. }
      exists (concat ([cs] ++ css)), ((a ++ [x]) ++ a2). cbn [fst].
      split; [exact MM|]. split; [eapply uni_cfg; [|exact H3]|].
      + rewrite Hc, (cfg_step _ _ _ _ (gr_step _ _ _ _ _ _ G2)), Hc2. reflexivity.
      + split; [|split; [exact H1|split; [exact H2|]]].
        * pose proof (grown_shorter _ _ _ _ _ _ G2). rewrite Ep in *. destruct css; [congruence|]. cbn [length] in *. lia.
        * cbn [concat app]. rewrite zlen_app.
          assert (E : zlen cs = k ^ Z.of_nat dp) by (apply (perfect_count k dp) with (n := fst x); [lia|apply Hm|assumption]).
          enough (0 < zlen (concat css)) by lia.
          pose proof (gr_some _ _ _ _ _ _ G2) as Hsome. destruct css as [|c0 css]; [congruence|].
          inversion Hsome; subst. cbn [concat]. rewrite zlen_app. destruct c0; [congruence|]. rewrite zlen_cons.
          pose proof (zlen_nonneg c0). pose proof (zlen_nonneg (concat css)). lia.
    - destruct HF as [F1 F2]. split.
      + intros F. apply F1. eapply faultless_step; [apply (gr_step _ _ _ _ _ _ G)|exact F].
      + eapply wups_trans; [eapply grown_wups, G|exact F2].
    - exact HF.
    - exact HF.
  Qed.

  Lemma made_prepare d0 d x sz cs a : made d0 d x sz cs a -> made d0 (prepareNext d) x sz cs a.
  Proof.
    intros H. pose proof (db_step_off _ _ _ _ (md_step _ _ _ _ _ _ H)) as Ho.
    pose proof (db_step_trans _ _ _ _ _ _ _ (md_step _ _ _ _ _ _ H) (db_step_prepare d Ho)) as Hs. rewrite !app_nil_r in Hs.
    destruct H. constructor; auto.
  Qed.

  Lemma layout_loop_spec fuel : 2 <= k -> forall dp x sz cs a d0 d, cfg d0 = c -> made d0 d x sz cs a ->
    left_full k dp (fst x) -> (pend d <> [] -> perfect k dp (fst x)) -> uni d0 TFile (fst x) ->
    (1 <= Z.of_nat dp -> k ^ (Z.of_nat dp - 1) < zlen cs) ->
    match layout_loop fuel (S dp) x sz d with
    | (Ok y, d') => pend d' = [] /\ exists sz' cs' a', root_ok d0 d' y sz' cs' a'
    | (Err _, d') => ~ faultless d0 /\ wups (db_w d0) (db_w d')
    | (Panic, _) => False
    | (Fuel, _) => (fuel < length (pend d))%nat
    end.
  Proof.
    intros Hk. induction fuel as [|fuel IH]; intros dp x sz cs a d0 d Hc Hm HL HP HU Hmin;
      cbn [layout_loop]; unfold bind at 1; rewrite Done_spec; destruct (pend d) as [|e r] eqn:Ep.
    - unfold ret. rewrite pend_prepare. split; [assumption|]. exists sz, cs, a. split; [now apply made_prepare|].
      split; [assumption|]. exists dp. rewrite pend_prepare, Ep. auto.
    - unfold lift. cbn. lia.
    - unfold ret. rewrite pend_prepare. split; [assumption|]. exists sz, cs, a. split; [now apply made_prepare|].
      split; [assumption|]. exists dp. rewrite pend_prepare, Ep. auto.
    - unfold bind at 1.
      assert (Hp1 : pend (prepareNext d) = e :: r) by (rewrite pend_prepare; exact Ep).
      assert (Hm1 := made_prepare _ _ _ _ _ _ Hm).
      pose proof (wrap_spec d0 (prepareNext d) dp x sz cs a Hk Hc Hm1) as W.
      rewrite Hp1 in W. specialize (W ltac:(discriminate) HL (HP ltac:(discriminate)) HU).
      destruct (with_new _ _ _) as [[[y sz']|er| |] d'] eqn:Ew; auto.
      destruct W as (cs' & a' & M' & U' & Hlt & L' & P' & Hm'). cbn [fst snd].
      specialize (IH (S dp) y sz' cs' a' d0 d' Hc M' L' P' U').
      assert (Hmn : 1 <= Z.of_nat (S dp) -> k ^ (Z.of_nat (S dp) - 1) < zlen cs').
      { intros _. replace (Z.of_nat (S dp) - 1) with (Z.of_nat dp) by lia. exact Hm'. }
      specialize (IH Hmn). destruct (layout_loop fuel (S (S dp)) y sz' d') as [[z|er| |] d2]; auto.
      all: cbn [length] in *; try lia.
  Qed.

  (** With a link limit below two the loop makes no progress and never ends. *)
  Lemma layout_loop_stuck fuel : k <= 1 -> forall dp x sz cs a d0 d, cfg d0 = c -> made d0 d x sz cs a -> pend d <> [] ->
    match layout_loop fuel (S dp) x sz d with
    | (Fuel, _) => True
    | (Err _, d') => ~ faultless d0 /\ wups (db_w d0) (db_w d')
    | _ => False
    end.
  Proof.
    intros Hk. induction fuel as [|fuel IH]; intros dp x sz cs a d0 d Hc Hm Hp;
      cbn [layout_loop]; unfold bind at 1; rewrite Done_spec; destruct (pend d) as [|e r] eqn:Ep; try congruence.
    - exact I.
    - unfold bind at 1.
      assert (Hp1 : pend (prepareNext d) = e :: r) by (rewrite pend_prepare; exact Ep).
      apply made_prepare in Hm. set (d1 := prepareNext d) in *. pose proof (md_step _ _ _ _ _ _ Hm) as Hs.
      assert (Hc1 : cfg d1 = c) by (rewrite (cfg_step _ _ _ _ Hs); assumption).
      assert (Hb : db_builder d1 = db_builder d0) by apply Hs.
      rewrite Hb. set (n0 := NewFSNodeOverDag (db_builder d0) TFile).
      unfold with_new. unfold bind at 1.
      destruct (AddChild_spec n0 d0 d1 x sz cs a (st_offr _ _ _ _ Hs) Hm) as [(d2 & -> & G & Ep2)|(d2 & -> & G)]; [|exact G].
      set (n1 := with_child n0 (fst x) sz) in *.
      assert (Hmax : db_maxlinks d2 = k).
      { pose proof (cfg_step _ _ _ _ (gr_step _ _ _ _ _ _ G)) as E. rewrite Hc in E. unfold cfg in E. unfold k. rewrite <- E. reflexivity. }
      assert (E1 : fillNodeRec (S dp) (n1, d2) = commit (n1, d2)).
      { cbn [fillNodeRec]. unfold bind. destruct (room (n1, d2)); cbn [fill_loop fst snd];
          replace (fNumChildren n1 <? db_maxlinks d2) with false; try reflexivity;
          unfold n1; rewrite fNum_child; change (fNumChildren n0) with 0; lia. }
      rewrite E1.
      assert (Hcm : gpost n1 d2 (fun n' d' _ => committed n' /\ d' = d2) (commit (n1, d2))).
      { apply commit_spec.
        - eapply grown_file_ok, G.
        - eapply db_step_off, G.
        - discriminate.
        - intros b Hb'. split; [exact Hb'|reflexivity]. }
      destruct (commit (n1, d2)) as [[u|er| |] [n' d']]; cbn [gpost] in Hcm.
      + destruct Hcm as (css & a2 & G2 & Hcm & ->). cbn [fst snd].
        pose proof (grown_trans _ _ _ _ _ _ _ _ _ _ G G2) as GG.
        assert (MM : made d0 d2 (GetDagNode n', None) (fFileSize n') (concat ([cs] ++ css)) ((a ++ [x]) ++ a2)).
        { apply new_made; [exact GG|exact Hcm|discriminate]. }
        apply (IH (S dp) _ _ _ _ d0 d2 Hc MM). rewrite Ep2, Hp1. discriminate.
      + destruct Hcm as [F1 F2]. split.
        * intros F. apply F1. eapply faultless_step; [apply (gr_step _ _ _ _ _ _ G)|exact F].
        * eapply wups_trans; [eapply grown_wups, G|exact F2].
      + destruct Hcm.
      + destruct Hcm.
  Qed.

  (** The root after the final Add. *)
  Definition layout_ok (d d' : db) (root : node) : Prop :=
    exists chunks cs added, pend d = map EvData chunks /\ pend d' = [] /\
      file_dag root cs /\ (chunks = [] /\ cs = [[]] \/ cs = chunks) /\
      Forall (fun c => zlen c <= BlockSizeLimit) chunks /\
      w_added (db_w d') = w_added (db_w d) ++ added /\ all_in root added /\
      fs_entries added = entries d chunks /\ tsizes_exact root /\ uni d TFile root /\
      exists dp, left_full k dp root /\ (1 <= Z.of_nat dp -> 2 <= k /\ k ^ (Z.of_nat dp - 1) < zlen chunks).

  Lemma Layout_spec fuel d : cfg d = c -> 0 <= db_offset d < two64 ->
    match Layout fuel d with
    | (Ok root, d') => layout_ok d d' root
    | (Err _, d') => ~ faultless d /\ wups (db_w d) (db_w d')
    | (Panic, _) => False
    | (Fuel, _) => k <= 1 \/ (fuel < length (pend d))%nat
    end.
  Proof.
    intros Hc Ho. unfold Layout. unfold bind at 1. rewrite Done_spec. pose proof (db_step_prepare d Ho) as Hq.
    destruct (pend d) as [|e r] eqn:Ep.
    - unfold bind. destruct (leaf_dag (prepareNext d) TFile None (or_introl eq_refl)) as (n & -> & Hd & Hl & Hraw & Hpro); [cbn; unfold BlockSizeLimit, zlen; cbn; lia|].
      cbn [obytes] in *. unfold Add, dserv_add. cbn [fst snd]. rewrite (file_dag_seal _ _ Hd).
      destruct (w_addok _ _) eqn:Ea.
      + cbn. exists [], [[]], [(n, None)]. cbn [map]. rewrite Ep. split; [reflexivity|].
        split; [change (pend (prepareNext d) = []); now rewrite pend_prepare|].
        split; [exact Hd|]. split; [auto|]. split; [constructor|].
        split; [cbn; rewrite (st_added _ _ _ _ Hq); now rewrite app_nil_r|].
        split; [apply (below_all n [] None); unfold below_in; rewrite Hl; reflexivity|].
        split; [unfold entries; cbn; now destruct (db_fs d && db_raw d)|].
        split; [apply tsizes_node; rewrite Hl; constructor|].
        split.
        * apply uni_leaf. unfold leaf_of. rewrite <- (st_raw _ _ _ _ Hq), <- (st_builder _ _ _ _ Hq).
          destruct (db_raw (prepareNext d)); eauto.
        * exists 0%nat. split; [exact Hl|]. cbn. lia.
      + cbn. split.
        * intros [_ F]. rewrite (st_addok _ _ _ _ Hq), F in Ea. discriminate.
        * eapply wups_trans; [eapply db_step_quiet, Hq|]. now apply wups_same.
    - unfold bind at 1.
      assert (Hp1 : pend (prepareNext d) = e :: r) by (rewrite pend_prepare; exact Ep).
      pose proof (leaf_made TFile (prepareNext d) (or_introl eq_refl) (db_step_off _ _ _ _ Hq)) as Hl.
      rewrite Hp1 in Hl. specialize (Hl ltac:(discriminate)).
      destruct (NewLeafDataNode TFile (prepareNext d)) as [[[x sz]|er| |] d1]; cbn [mk_post] in Hl; auto; [| |destruct Hl].
      2:{ destruct Hl as [F1 F2]. split.
          - intros F. apply F1. eapply faultless_step; eassumption.
          - eapply wups_trans; [eapply db_step_quiet, Hq|assumption]. }
      destruct Hl as (cs & a & Hm & Hleaf & Hlen). apply (made_quiet d _ _ _ _ _ _ Hq) in Hm. cbn [fst snd].
      assert (Hlf : left_full k 0 (fst x)) by (eapply leaf_of_links, Hleaf).
      assert (HU : uni d TFile (fst x)).
      { apply uni_leaf. rewrite <- (st_raw _ _ _ _ Hq), <- (st_builder _ _ _ _ Hq). exact Hleaf. }
      assert (Fin : forall y d2 sz' cs' a', pend d2 = [] -> made d d2 y sz' cs' a' -> uni d TFile (fst y) ->
         (exists dp, left_full k dp (fst y) /\ (1 <= Z.of_nat dp -> 2 <= k /\ k ^ (Z.of_nat dp - 1) < zlen cs')) ->
         match (do _ <- Add y ;; ret (seal (fst y))) d2 with
         | (Ok root, d') => layout_ok d d' root
         | (Err _, d') => ~ faultless d /\ wups (db_w d) (db_w d')
         | (Panic, _) => False
         | (Fuel, _) => k <= 1 \/ (fuel < length (e :: r))%nat end).
      { intros y d2 sz' cs' a' Hp2 M HU2 Hdp. pose proof (md_step _ _ _ _ _ _ M) as Hs.
        rewrite (file_dag_seal _ _ (md_dag _ _ _ _ _ _ M)).
        unfold bind, Add, dserv_add, ret. rewrite (file_dag_seal _ _ (md_dag _ _ _ _ _ _ M)).
        destruct (w_addok _ _) eqn:Ea.
        - exists cs', cs', (a' ++ [y]). split; [rewrite (st_pend _ _ _ _ Hs), Hp2; apply app_nil_r|].
          split; [exact Hp2|]. split; [apply M|]. split; [auto|]. split; [apply M|].
          split; [cbn; rewrite (st_added _ _ _ _ Hs), app_assoc; destruct y; reflexivity|].
          split; [destruct y as [y o]; apply below_all, M|]. split; [apply M|]. split; [apply M|]. split; [exact HU2|]. exact Hdp.
        - split.
          + intros [_ F]. rewrite (st_addok _ _ _ _ Hs), F in Ea. discriminate.
          + eapply wups_trans; [eapply made_wups, M|]. now apply wups_same. }
      destruct (Z_le_gt_dec 2 k) as [Hk|Hk].
      + assert (HL : match layout_loop fuel 1 x sz d1 with
          | (Ok y, d') => pend d' = [] /\ exists sz' cs' a', root_ok d d' y sz' cs' a'
          | (Err _, d') => ~ faultless d /\ wups (db_w d) (db_w d')
          | (Panic, _) => False
          | (Fuel, _) => (fuel < length (pend d1))%nat
          end).
        { apply (layout_loop_spec fuel Hk 0 x sz cs a d d1 Hc Hm Hlf); auto. cbn. lia. }
        unfold bind at 1. destruct (layout_loop fuel 1 x sz d1) as [[y|er| |] d2]; auto.
        * destruct HL as (Hp2 & sz' & cs' & a' & M & HU2 & dp & L1 & _ & L3).
          specialize (Fin y d2 sz' cs' a' Hp2 M HU2). apply Fin. exists dp. auto.
        * right. pose proof (made_shorter _ _ _ _ _ _ Hm) as X. rewrite Ep in X. lia.
      + destruct (pend d1) as [|e1 r1] eqn:Ep1.
        * assert (EL : layout_loop fuel 1 x sz d1 = (Ok x, prepareNext d1)).
          { destruct fuel; cbn [layout_loop]; unfold bind; rewrite Done_spec, Ep1; reflexivity. }
          unfold bind at 1. rewrite EL. apply (Fin x (prepareNext d1) sz cs a); auto.
          -- now rewrite pend_prepare.
          -- now apply made_prepare.
          -- exists 0%nat. split; [exact Hlf|]. cbn. lia.
        * pose proof (layout_loop_stuck fuel ltac:(lia) 0 x sz cs a d d1 Hc Hm) as St.
          rewrite Ep1 in St. specialize (St ltac:(discriminate)).
          unfold bind at 1. destruct (layout_loop fuel 1 x sz d1) as [[y|er| |] d2]; [destruct St|exact St|destruct St|left; lia].
  Qed.
End Layout.
