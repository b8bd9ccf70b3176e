(** What happens to nodes in hand, and to modifiers that share links or not. *)
From Verif Require Import Base Pb FSNode Dag DagProofs Builder Trickle Importer Reader Modifier Directory SpecFile SpecAppend SpecReader SpecModifier Alias SpecAlias AliasProofs AliasRun
  ReaderWitness AppendRun ModifierRun ModifierFacts.
From Coq Require Import Permutation.

Section Facts.
  Variable split : bytes -> list bytes.
  Variable wbsize : Z.

  Lemma reached_ok w cs rs st : hrun split wbsize (hstart w) cs rs st -> st_ok st.
  Proof. intros X. apply (hrun_ok _ _ _ _ _ _ (start_ok w) X). Qed.

  Lemma held_frame w cs rs st cs' rs' st' j o :
    hrun split wbsize (hstart w) cs rs st -> hrun split wbsize st cs' rs' st' -> nth_error (h_held st) j = Some o ->
    exists o', nth_error (h_held st') j = Some o' /\ same_frame (shows (h_heap st) o) (shows (h_heap st') o').
  Proof.
    intros X1 X2 Ho. pose proof (reached_ok _ _ _ _ X1) as S. destruct (hrun_ok _ _ _ _ _ _ S X2) as (_ & [L C] & K).
    destruct (K j o Ho) as (o' & A & B). exists o'. split; [exact A|]. rewrite <- (same_obj_shows (h_heap st') _ _ B).
    destruct S as [_ S]. rewrite Forall_forall in S. specialize (S o (nth_error_In _ _ Ho)). destruct S as [_ S]. rewrite Forall_forall in S.
    destruct o as [p d|p d ps c]; cbn [shows same_frame]; [repeat split|]. cbn [obj_ptrs] in S. split; [reflexivity|]. split; [reflexivity|]. cbn [node_links]. unfold view. rewrite !map_map.
    split; apply map_ext_in; intros a Ha; symmetry; apply C; auto.
  Qed.

  (** Objects that share no link with a modifier. *)
  Definition unshared (st : hstate) (o : obj) : Prop :=
    forall i m ps a, nth_error (h_mods st) i = Some (m, ps) -> In a (obj_ptrs o) -> In a ps -> False.
  Lemma view_kept h h' ps : (forall a, In a ps -> cell h' a = cell h a) -> view h' ps = view h ps.
  Proof. intros H. apply map_ext_in. exact H. Qed.
  Lemma shows_kept h h' o : (forall a, In a (obj_ptrs o) -> cell h' a = cell h a) -> shows h' o = shows h o.
  Proof. destruct o as [p d|p d ps c]; cbn; [reflexivity|]. intros H. now rewrite (view_kept h h'). Qed.

  Lemma step_unshared st c r st' o : st_ok st -> ptrs_ok (h_heap st) (obj_ptrs o) -> unshared st o -> (forall j, c <> HNew j) -> hstep split wbsize st c r st' ->
    unshared st' o /\ shows (h_heap st') o = shows (h_heap st) o.
  Proof.
    intros [S1 S2] [O1 O2] U Hc X. rewrite Forall_forall in O2. destruct X as [w h ms hs k n Hk|w h ms hs j o1 Hj|w h ms hs j o1 Hj|w h ms hs i op m ps q m' w' h' ps' Hi X]; cbn [h_heap h_mods h_held] in *.
    - split; [exact U|]. apply shows_kept. intros a Ha. apply cell_app. now apply O2.
    - split; [exact U|reflexivity].
    - now destruct (Hc j).
    - assert (Hm : mod_ok h (m, ps)) by (rewrite Forall_forall in S1; apply S1; eapply nth_error_In; exact Hi).
      destruct (proj1 (f_hop split wbsize op) _ (refresh_ok h ps m w Hm) _ _ X) as (E & O & F1 & F2 & F3 & F4).
      split.
      + intros k mk pk a Hk Ha Hp. cbn [h_mods] in Hk. destruct (Nat.eq_dec i k) as [->|Hn].
        * rewrite (set_nth_eq _ _ _ _ Hi) in Hk. injection Hk as <- <-. destruct (F4 a Hp) as [G|G]; [eapply U; eassumption|]. specialize (O2 a Ha). cbn in O2. lia.
        * rewrite set_nth_neq in Hk by assumption. eapply U; eassumption.
      + apply shows_kept. intros a Ha. apply F3; [now apply O2|]. intros G. eapply U; eassumption.
  Qed.
  Lemma run_unshared st cs rs st' o : st_ok st -> ptrs_ok (h_heap st) (obj_ptrs o) -> unshared st o -> no_new cs -> hrun split wbsize st cs rs st' ->
    shows (h_heap st') o = shows (h_heap st) o.
  Proof.
    intros S P U Hn X. revert S P U Hn. induction X as [st|st c r st1 cs rs st2 X1 X2 IH]; intros S P U Hn; [reflexivity|].
    destruct (step_unshared st c r st1 o S P U) as [U1 E1]; [intros j ->; apply (Hn j); now left|exact X1|].
    destruct (hstep_ok _ _ _ _ _ _ S X1) as (S1 & [L _] & _). rewrite <- E1. apply IH; [exact S1|eapply ptrs_grow; eassumption|exact U1|].
    intros j Hj. apply (Hn j). now right.
  Qed.

  (** Once the buffered changes are written, the nodes handed out earlier are not
      changed any more. *)
  Lemma held_frozen w cs rs st m ps op x st1 cs' rs' st2 j o :
    hrun split wbsize (hstart w) cs rs st -> h_mods st = [(m, ps)] -> HasChanges m = true -> syncs op = true ->
    hstep split wbsize st (HCall 0 op) (Ok x) st1 -> hrun split wbsize st1 cs' rs' st2 -> no_new cs' ->
    nth_error (h_held st) j = Some o -> shows (h_heap st2) o = shows (h_heap st1) o.
  Proof.
    intros X0 Em Hb Hy X1 X2 Hn Ho. pose proof (reached_ok _ _ _ _ X0) as S. destruct (hstep_ok _ _ _ _ _ _ S X1) as (S1 & [L _] & _).
    destruct S as [SA SB]. rewrite Forall_forall in SB. pose proof (SB o (nth_error_In _ _ Ho)) as Po.
    refine (run_unshared st1 cs' rs' st2 o S1 (ptrs_grow _ _ _ L Po) _ Hn X2).
    inversion X1 as [| | |w0 h ms hs i op0 m0 ps0 q m' w' h' ps' Hi Hx E1 E2 E3 E4]; subst. cbn [h_heap h_mods h_held] in *. subst ms. cbn in Hi. injection Hi as <- <-.
    assert (Hm : mod_ok h (m, ps)) by (inversion SA; assumption).
    pose proof (hop_above split wbsize op _ _ _ (refresh_ok h ps m w0 Hm) Hy ltac:(cbn [fst]; rewrite refresh_buf; unfold HasChanges in Hb; destruct (m_buf m); congruence) Hx) as [_ A].
    intros k mk pk a Hk Ha Hp. cbn [h_mods set_nth] in Hk. destruct k as [|k]; [|destruct k; discriminate]. cbn in Hk. injection Hk as <- <-. apply A in Hp.
    destruct Po as [_ Po]. rewrite Forall_forall in Po. specialize (Po a Ha). unfold heap_of in Hp. cbn in Hp, Po. lia.
  Qed.

  (** Calls that neither write nor find anything to write back change no node in hand. *)
  Lemma held_quiet w cs rs st i m ps op r st1 j o :
    hrun split wbsize (hstart w) cs rs st -> nth_error (h_mods st) i = Some (m, ps) -> HasChanges m = false -> writes op = false ->
    hstep split wbsize st (HCall i op) r st1 -> nth_error (h_held st) j = Some o -> shows (h_heap st1) o = shows (h_heap st) o.
  Proof.
    intros X0 Em Hb Hy X1 Ho. pose proof (reached_ok _ _ _ _ X0) as [SA SB]. rewrite Forall_forall in SB. destruct (SB o (nth_error_In _ _ Ho)) as [_ Po]. rewrite Forall_forall in Po.
    inversion X1 as [| | |w0 h ms hs i0 op0 m0 ps0 q m' w' h' ps' Hi Hx E1 E2 E3 E4]; subst. cbn [h_heap h_mods h_held] in *. rewrite Em in Hi. injection Hi as <- <-.
    pose proof (q_hop split wbsize op ((refresh h ps m, w0), (h, ps)) Hy) as Q. cbn [fst] in Q. rewrite refresh_buf in Q.
    destruct (Q ltac:(unfold HasChanges in Hb; destruct (m_buf m); congruence) _ _ Hx) as (new & E). unfold heap_of in E. cbn [fst snd] in E. subst h'.
    apply shows_kept. intros a Ha. apply cell_app. now apply Po.
  Qed.

  (** ** The CID *)

  Definition knows (hs : list obj) (j : nat) (k : node) : Prop :=
    exists o, nth_error hs j = Some o /\ match o with ORaw p d => k = NRaw p d | OProto _ _ _ c => c = Some k end.
  Lemma knows_cid h hs j k o : knows hs j k -> nth_error hs j = Some o -> obj_cid h o = k.
  Proof. intros (o' & E & K) H. rewrite E in H. injection H as <-. destruct o' as [p d|p d ps c]; [now rewrite K|now subst c]. Qed.
  Lemma knows_app hs j k x : knows hs j k -> knows (hs ++ x) j k.
  Proof. intros (o & E & K). exists o. split; [|exact K]. rewrite nth_error_app1; [exact E|]. apply nth_error_Some. congruence. Qed.
  Lemma knows_ask h hs j k i o : knows hs j k -> nth_error hs i = Some o -> knows (set_nth i (ask_cid h o) hs) j k.
  Proof.
    intros H Ho. destruct (Nat.eq_dec i j) as [->|Hn].
    - pose proof (knows_cid h hs j k o H Ho) as E. destruct H as (o' & E1 & K). rewrite Ho in E1. injection E1 as <-. exists (ask_cid h o). split; [eapply set_nth_eq; exact Ho|].
      destruct o as [p d|p d ps c]; cbn [ask_cid]; [exact K|now rewrite E].
    - destruct H as (o' & E1 & K). exists o'. split; [now rewrite set_nth_neq|exact K].
  Qed.
  Lemma knows_run st cs rs st' j k : hrun split wbsize st cs rs st' -> knows (h_held st) j k -> knows (h_held st') j k.
  Proof.
    intros X. induction X as [st|st c r st1 cs rs st2 X1 X2 IH]; intros H; [exact H|]. apply IH.
    destruct X1; cbn [h_held] in *; [now apply knows_app|now apply knows_ask|now apply knows_ask|now apply knows_app].
  Qed.
  Lemma cid_fixed st j k st1 cs rs st2 k' st3 :
    hstep split wbsize st (HCid j) (Ok (BNode k)) st1 -> hrun split wbsize st1 cs rs st2 -> hstep split wbsize st2 (HCid j) (Ok (BNode k')) st3 -> k' = k.
  Proof.
    intros X1 X2 X3. inversion X1 as [|w h ms hs j0 o Hj E1 E2 E3 E4| |]; subst. inversion X3 as [|w3 h3 ms3 hs3 j3 o3 Hj3 E1 E2 E3 E4| |]; subst.
    eapply knows_cid; [|exact Hj3]. change hs3 with (h_held (mkH w3 h3 ms3 hs3)). eapply knows_run; [exact X2|]. cbn [h_held].
    exists (ask_cid h o). split; [eapply set_nth_eq; exact Hj|]. destruct o as [p d|p d ps c]; reflexivity.
  Qed.
  Lemma fetched_cid st k n st1 cs rs st2 k' st3 :
    hstep split wbsize st (HGet k) (Ok (BNode n)) st1 -> hrun split wbsize st1 cs rs st2 -> hstep split wbsize st2 (HCid (length (h_held st))) (Ok (BNode k')) st3 -> k' = k.
  Proof.
    intros X1 X2 X3. inversion X1 as [w h ms hs k0 n0 Hk E1 E2 E3 E4| | |]; subst. inversion X3 as [|w3 h3 ms3 hs3 j3 o3 Hj3 E1 E2 E3 E4| |]; subst. cbn [h_held] in *.
    assert (n = k) as -> by (unfold dserv_get in Hk; destruct (_ && _); congruence).
    eapply knows_cid; [|exact Hj3]. change hs3 with (h_held (mkH w3 h3 ms3 hs3)). eapply knows_run; [exact X2|]. cbn [h_held].
    exists (decoded h k). split; [rewrite nth_error_app2, Nat.sub_diag by lia; reflexivity|]. destruct k; reflexivity.
  Qed.

  (** ** Modifiers that share no links *)

  Definition apart (st : hstate) : Prop :=
    (forall i m ps, nth_error (h_mods st) i = Some (m, ps) -> ptrs_ok (h_heap st) ps /\ view (h_heap st) ps = cur_links m) /\
    (forall i j m ps m' ps' a, nth_error (h_mods st) i = Some (m, ps) -> nth_error (h_mods st) j = Some (m', ps') -> In a ps -> In a ps' -> i = j).

  Lemma apart_step st i op r st' : apart st -> hstep split wbsize st (HCall i op) r st' ->
    apart st' /\ exists m, nth_error (map fst (h_mods st)) i = Some m /\
      exists m', mcall split wbsize op (m, h_world st) = (r, (m', h_world st')) /\ map fst (h_mods st') = set_nth i m' (map fst (h_mods st)).
  Proof.
    intros [A1 A2] X. inversion X as [| | |w h ms hs i0 op0 m ps q m' w' h' ps' Hi Hx E1 E2 E3 E4]; subst. cbn [h_heap h_mods h_held h_world] in *.
    destruct (A1 i m ps Hi) as [P V]. rewrite (refresh_id h ps m V) in Hx.
    destruct (proj1 (f_hop split wbsize op) ((m, w), (h, ps)) (conj P V) _ _ Hx) as (E & (O1 & O2) & F1 & F2 & F3 & F4). cbn [fst] in E.
    assert (Lt : forall j mj pj a, nth_error ms j = Some (mj, pj) -> In a pj -> (a < length h)%nat).
    { intros j mj pj a Hj Ha. destruct (A1 j mj pj Hj) as [[_ B] _]. rewrite Forall_forall in B. now apply B. }
    split; [split|].
    - intros j mj pj Hj. cbn [h_mods h_heap] in *. destruct (Nat.eq_dec i j) as [->|Hn].
      + rewrite (set_nth_eq _ _ _ _ Hi) in Hj. injection Hj as <- <-. now split.
      + rewrite set_nth_neq in Hj by assumption. destruct (A1 j mj pj Hj) as [B1 B2]. split; [eapply ptrs_grow; eassumption|]. rewrite <- B2. apply view_kept.
        intros a Ha. apply F3; [eapply Lt; eassumption|]. intros G. apply Hn. eapply A2; eassumption.
    - assert (Q : forall j mj pj a, i <> j -> nth_error ms j = Some (mj, pj) -> In a ps' -> In a pj -> False).
      { intros j mj pj a Hn Hj Ha Hb. destruct (F4 a Ha) as [G|G]; [apply Hn; eapply A2; eassumption|]. pose proof (Lt j mj pj a Hj Hb). lia. }
      intros j k mj pj mk pk a Hj Hk Ha Hb. cbn [h_mods] in *. destruct (Nat.eq_dec i j) as [->|Hn], (Nat.eq_dec j k) as [->|Hn2]; auto.
      + rewrite (set_nth_eq _ _ _ _ Hi) in Hj. injection Hj as <- <-. rewrite set_nth_neq in Hk by assumption. destruct (Q k mk pk a); auto.
      + rewrite set_nth_neq in Hj by assumption. destruct (Nat.eq_dec i k) as [->|Hn3].
        * rewrite (set_nth_eq _ _ _ _ Hi) in Hk. injection Hk as <- <-. destruct (Q j mj pj a); auto.
        * rewrite set_nth_neq in Hk by assumption. eapply A2; eassumption.
    - exists m. split; [rewrite nth_error_map, Hi; reflexivity|]. exists m'. split; [exact E|]. clear - Hi. revert i Hi. induction ms as [|x ms IH]; intros [|i] Hi; cbn in *; try discriminate; auto.
      f_equal. now apply IH.
  Qed.
  Lemma apart_calls cs : forall st rs st', apart st -> hrun split wbsize st (map (fun c => HCall (fst c) (snd c)) cs) rs st' ->
    apart_run split wbsize (h_world st) (map fst (h_mods st)) cs = Some (rs, h_world st').
  Proof.
    induction cs as [|[i op] cs IH]; intros st rs st' A X; inversion X as [|? ? r st1 ? rs1 ? X1 X2]; subst; [reflexivity|]. cbn [fst snd] in X1.
    destruct (apart_step _ _ _ _ _ A X1) as (A1 & m & Em & m' & E & E2). cbn [apart_run]. rewrite Em, E. rewrite <- E2. rewrite (IH st1 rs1 st' A1 X2). reflexivity.
  Qed.
  Lemma apart_total cs : forall st, apart st -> (forall i op, In (i, op) cs -> (i < length (h_mods st))%nat) ->
    exists rs st', hrun split wbsize st (map (fun c => HCall (fst c) (snd c)) cs) rs st'.
  Proof.
    induction cs as [|[i op] cs IH]; intros st A Hc; [exists [], st; constructor|].
    assert (Hi : exists m ps, nth_error (h_mods st) i = Some (m, ps)).
    { destruct (nth_error (h_mods st) i) as [[m ps]|] eqn:E; [eauto|]. apply nth_error_None in E. specialize (Hc i op (or_introl eq_refl)). lia. }
    destruct Hi as (m & ps & Hi). pose proof A as [A1 _]. destruct (A1 i m ps Hi) as [P V]. destruct st as [w h ms hs]. cbn [h_mods h_heap] in *.
    destruct (proj2 (f_hop split wbsize op) ((m, w), (h, ps)) (conj P V)) as (r & [[m' w'] [h' ps']] & X).
    assert (X1 : hstep split wbsize (mkH w h ms hs) (HCall i op) r (mkH w' h' (set_nth i (m', ps') ms) (hs ++ handed r ps'))).
    { econstructor; [exact Hi|]. rewrite (refresh_id h ps m V). exact X. }
    destruct (IH _ (proj1 (apart_step _ _ _ _ _ A X1))) as (rs & st' & X2).
    { intros j o Hj. cbn [h_mods]. rewrite set_nth_length. apply (Hc j o). now right. }
    exists (r :: rs), st'. cbn [map fst snd]. econstructor; eassumption.
  Qed.

  Lemma get_same w k n : dserv_get w k = Ok n -> n = k.
  Proof. unfold dserv_get. destruct (_ && _); congruence. Qed.
  Lemma apart_open ks : forall st rs st', apart st -> hrun split wbsize st (opening (length (h_held st)) ks) rs st' ->
    apart st' /\ h_world st' = h_world st /\ map fst (h_mods st') = map fst (h_mods st) ++ map NewDagModifier ks.
  Proof.
    induction ks as [|k ks IH]; intros st rs st' A X; [inversion X; subst; split; [assumption|]; split; [reflexivity|]; now rewrite app_nil_r|].
    cbn [opening] in X. inversion X as [|? ? r st1 ? rs1 ? X1 X2]; subst. inversion X2 as [|? ? r2 st2 ? rs2 ? X3 X4]; subst. clear X X2.
    inversion X1 as [w h ms hs k0 n Hk E1 E2 E3 E4| | |]; subst. apply get_same in Hk as ->. cbn [h_held h_mods h_heap h_world] in *.
    inversion X3 as [| |w0 h0 ms0 hs0 j o Hj E1 E2 E3 E4|]; subst. rewrite nth_error_app2, Nat.sub_diag in Hj by lia. cbn in Hj. injection Hj as <-.
    match type of X4 with hrun _ _ ?s _ _ _ => set (st2 := s) in * end.
    assert (A2 : apart st2).
    { destruct A as [A1 A2]. cbn [h_mods h_heap] in *.
      assert (Lt : forall j mj pj a, nth_error ms j = Some (mj, pj) -> In a pj -> (a < length h)%nat).
      { intros j mj pj a Hj Ha. destruct (A1 j mj pj Hj) as [[_ B] _]. rewrite Forall_forall in B. now apply B. }
      assert (New : shows (h ++ node_links k) (decoded h k) = k /\ ptrs_ok (h ++ node_links k) (obj_ptrs (decoded h k)) /\ view (h ++ node_links k) (obj_ptrs (decoded h k)) = node_links k /\
        forall a, In a (obj_ptrs (decoded h k)) -> (length h <= a)%nat).
      { destruct k as [p d|p d ls]; cbn [decoded shows obj_ptrs node_links]; [split; [reflexivity|]; split; [split; constructor|]; split; [reflexivity|]; intros a []|].
        rewrite view_new. split; [reflexivity|]. split; [apply ptrs_new|]. split; [reflexivity|]. intros a Ha. apply in_seq in Ha. lia. }
      destruct New as (N1 & N2 & N3 & N4). split.
      - intros j mj pj Hj. cbn [st2 h_mods h_heap] in *. destruct (Nat.lt_ge_cases j (length ms)) as [L|L].
        + rewrite nth_error_app1 in Hj by assumption. destruct (A1 j mj pj Hj) as [B1 B2]. split; [now apply ptrs_app|]. rewrite <- B2. apply view_app. apply B1.
        + rewrite nth_error_app2 in Hj by assumption. destruct (j - length ms)%nat as [|x]; [|destruct x; discriminate]. cbn in Hj. injection Hj as <- <-. rewrite N1. split; assumption.
      - intros i j mi pi mj pj a Hi Hj Ha Hb. cbn [st2 h_mods h_heap] in *. destruct (Nat.lt_ge_cases i (length ms)) as [L|L], (Nat.lt_ge_cases j (length ms)) as [L'|L'].
        + rewrite nth_error_app1 in Hi, Hj by assumption. eapply A2; eassumption.
        + rewrite nth_error_app1 in Hi by assumption. rewrite nth_error_app2 in Hj by assumption. destruct (j - length ms)%nat as [|x]; [|destruct x; discriminate]. cbn in Hj. injection Hj as <- <-.
          apply N4 in Hb. pose proof (Lt _ _ _ _ Hi Ha). lia.
        + rewrite nth_error_app1 in Hj by assumption. rewrite nth_error_app2 in Hi by assumption. destruct (i - length ms)%nat as [|x]; [|destruct x; discriminate]. cbn in Hi. injection Hi as <- <-.
          apply N4 in Ha. pose proof (Lt _ _ _ _ Hj Hb). lia.
        + assert (i < length ms + 1)%nat by (change 1%nat with (length [(NewDagModifier (shows (h ++ node_links k) (decoded h k)), obj_ptrs (decoded h k))]); rewrite <- app_length; apply nth_error_Some; congruence).
          assert (j < length ms + 1)%nat by (change 1%nat with (length [(NewDagModifier (shows (h ++ node_links k) (decoded h k)), obj_ptrs (decoded h k))]); rewrite <- app_length; apply nth_error_Some; congruence). lia. }
    destruct (IH st2 rs2 st' A2) as (R1 & R2 & R3).
    { unfold st2. cbn [h_held]. rewrite set_nth_length, app_length. cbn [length]. replace (length hs + 1)%nat with (S (length hs)) by lia. exact X4. }
    split; [exact R1|]. split; [exact R2|]. rewrite R3. unfold st2. cbn [h_mods]. rewrite map_app. cbn [map]. rewrite <- app_assoc. cbn [app]. f_equal. f_equal. unfold NewDagModifier at 1. cbn [fst].
    f_equal. destruct k as [p d|p d ls]; cbn [decoded shows node_links]; [reflexivity|]. now rewrite view_new.
  Qed.
  Lemma start_apart w : apart (hstart w).
  Proof. split; intros i; destruct i; discriminate. Qed.

  (** Modifiers made from separately fetched nodes. *)
  Lemma separate w ks rs0 st cs rs st' :
    hrun split wbsize (hstart w) (opening 0 ks) rs0 st -> hrun split wbsize st (map (fun c => HCall (fst c) (snd c)) cs) rs st' ->
    apart_run split wbsize w (map NewDagModifier ks) cs = Some (rs, h_world st').
  Proof.
    intros X0 X. destruct (apart_open ks (hstart w) rs0 st (start_apart w) X0) as (A & Ew & Em). cbn in Ew, Em. rewrite <- Ew, <- Em. now apply apart_calls.
  Qed.
  Lemma separate_total w ks rs0 st cs : hrun split wbsize (hstart w) (opening 0 ks) rs0 st -> (forall i op, In (i, op) cs -> (i < length ks)%nat) ->
    exists rs st', hrun split wbsize st (map (fun c => HCall (fst c) (snd c)) cs) rs st'.
  Proof.
    intros X0 Hc. destruct (apart_open ks (hstart w) rs0 st (start_apart w) X0) as (A & Ew & Em). apply apart_total; [exact A|]. intros i op Hi.
    rewrite <- (map_length fst), Em. cbn. rewrite map_length. eapply Hc. exact Hi.
  Qed.
End Facts.

(** ** One modifier *)

Lemma mod_step_call split wbsize op s : mod_step split wbsize op s = match mcall split wbsize op s with (Ok o, s') => Some (o, s') | _ => None end.
Proof.
  destruct op; cbn [mod_step mcall]; unfold bind, ret;
    match goal with |- context [match ?x with (_, _) => _ end] => destruct x as [[y|e| |] s1] end; try reflexivity; destruct y; reflexivity.
Qed.
Lemma mod_run_apart split wbsize ops : forall m w h s', mod_run split wbsize ops (m, w) = Some (h, s') ->
  apart_run split wbsize w [m] (map (pair O) ops) = Some (map (fun x => Ok (snd (fst x))) h, snd s').
Proof.
  induction ops as [|op ops IH]; intros m w h s' H; cbn [mod_run] in H; [injection H as <- <-; reflexivity|].
  rewrite mod_step_call in H. cbn [map apart_run nth_error]. destruct (mcall split wbsize op (m, w)) as [[o|e| |] [m1 w1]]; try discriminate.
  destruct (mod_run split wbsize ops (m1, w1)) as [[h2 s2]|] eqn:E; [|discriminate]. injection H as <- <-. cbn [set_nth]. rewrite (IH _ _ _ _ E). reflexivity.
Qed.

Lemma modifier_is_file_shared : forall split wbsize n c w ops rs0 st rs st',
  chunker_ok split -> file_content n c -> growable K n -> available w n -> can_add w -> serves w ->
  zlen c < 9223372036854775808 -> all_allowed (mkF c 0 false NoReader true) ops ->
  hrun split wbsize (hstart w) [HGet n; HNew 0] rs0 st -> hrun split wbsize st (map (HCall 0) ops) rs st' ->
  exists h, map (fun x => fst (fst x)) h = ops /\ map (fun x => Ok (snd (fst x))) h = rs /\ like_file (mkF c 0 false NoReader true) h.
Proof.
  intros split wbsize n c w ops rs0 st rs st' H1 H2 H3 H4 H5 H6 H7 H8 X0 X.
  destruct (modifier_is_file split wbsize n c w ops H1 H2 H3 H4 H5 H6 H7 H8) as (h & s & R1 & R2 & R3). exists h. split; [exact R2|]. split; [|exact R3].
  apply mod_run_apart in R1. change [HGet n; HNew 0] with (opening 0 [n]) in X0.
  assert (E : map (HCall 0) ops = map (fun c : nat * mop => HCall (fst c) (snd c)) (map (pair O) ops)) by (rewrite map_map; reflexivity). rewrite E in X.
  pose proof (separate split wbsize w [n] rs0 st _ rs st' X0 X) as A. cbn [map] in A. rewrite R1 in A. congruence.
Qed.

(** ** Witnesses *)

Lemma x_same {A} (f : M mst A) s r s1 : f (fst s) = (r, s1) -> same f s r (s1, snd s).
Proof. intros H. split; [exact H|reflexivity]. Qed.
Lemma x_bind {A B} (x : N hst A) (k : A -> N hst B) s a s1 r s' : x s (Ok a) s1 -> k a s1 r s' -> hbind x k s r s'.
Proof. intros H1 H2. left. eauto. Qed.
Lemma x_map {A B} (g : A -> B) (x : N hst A) s q s' : x s q s' -> hmap g x s (rmap g q) s'.
Proof. intros H. exists q. auto. Qed.
Lemma x_map2 {A B} (g : A -> B) (x : N hst A) s q s' r : x s q s' -> rmap g q = r -> hmap g x s r s'.
Proof. intros H <-. exists q. auto. Qed.
Lemma x_fresh {A} (f : M mst A) s r s1 h ps : f (fst s) = (r, s1) -> fst (snd s) ++ cur_links (fst s1) = h -> seq (length (fst (snd s))) (length (cur_links (fst s1))) = ps ->
  fresh_ptrs f s r (s1, (h, ps)).
Proof. intros H <- <-. split; [exact H|reflexivity]. Qed.
Lemma x_modify m w h ps p b ls buf x buf' w' h' ps' n' : m_node m = Some (NProto p b ls) -> m_buf m = Some buf ->
  hmodifyDag (weight (NProto p b ls)) p b h ps (m_start m) buf w = (x, buf', w', (h', ps')) -> NProto p b (view h' ps') = n' ->
  hmodify_cur ((m, w), (h, ps)) x ((m_set_buf (Some buf') (m_set_node (Some n') m), w'), (h', ps')).
Proof. intros H1 H2 H3 <-. unfold hmodify_cur. rewrite H1, H2, H3. auto. Qed.

Lemma x_call split wbsize st i op r st' m ps m1 s1 : nth_error (h_mods st) i = Some (m, ps) -> refresh (h_heap st) ps m = m1 ->
  hop split wbsize op ((m1, h_world st), (h_heap st, ps)) r s1 ->
  mkH (snd (fst s1)) (fst (snd s1)) (set_nth i (fst (fst s1), snd (snd s1)) (h_mods st)) (h_held st ++ handed r (snd (snd s1))) = st' ->
  hstep split wbsize st (HCall i op) r st'.
Proof. destruct st as [w h ms hs], s1 as [[m' w'] [h' ps']]. cbn. intros H1 <- H3 <-. econstructor; eassumption. Qed.
Lemma x_get split wbsize st k st' : dserv_get (h_world st) k = Ok k -> mkH (h_world st) (h_heap st ++ node_links k) (h_mods st) (h_held st ++ [decoded (h_heap st) k]) = st' ->
  hstep split wbsize st (HGet k) (Ok (BNode k)) st'.
Proof. destruct st as [w h ms hs]. cbn. intros H1 <-. now constructor. Qed.
Lemma x_new split wbsize st j o st' : nth_error (h_held st) j = Some o ->
  mkH (h_world st) (h_heap st) (h_mods st ++ [(NewDagModifier (shows (h_heap st) o), obj_ptrs o)]) (set_nth j (ask_cid (h_heap st) o) (h_held st)) = st' ->
  hstep split wbsize st (HNew j) (Ok BDone) st'.
Proof. destruct st as [w h ms hs]. cbn. intros H1 <-. now constructor. Qed.
Lemma x_cid split wbsize st j o k st' : nth_error (h_held st) j = Some o -> obj_cid (h_heap st) o = k ->
  mkH (h_world st) (h_heap st) (h_mods st) (set_nth j (ask_cid (h_heap st) o) (h_held st)) = st' -> hstep split wbsize st (HCid j) (Ok (BNode k)) st'.
Proof. destruct st as [w h ms hs]. cbn. intros H1 <- <-. now constructor. Qed.
Lemma x_truncate m w h a ps size nn s1 p b ls f fu e modified f' w1 h' ps' : m_node m = Some (NProto p b ls) -> truncate_cur size (m, w) = (Ok nn, s1) ->
  FSNodeFromBytes b = Ok f -> weight (NProto p b ls) = S fu -> trunc_links (dagTruncate fu) (view h (a :: ps)) 0 0 size (RemoveAllBlockSizes f) w = (Ok (Some (e, modified), f'), w1) ->
  h ++ [make_link [] modified] = h' -> psort h' (firstn e (a :: ps) ++ [length h]) = ps' ->
  htruncate_cur size ((m, w), (h, a :: ps)) (Ok nn) (s1, (h', ps')).
Proof.
  intros H1 H2 H3 H4 H5 <- <-. unfold htruncate_cur. rewrite H1. split; [exact H2|]. exists f, fu, e, modified, f', w1. auto.
Qed.

Ltac ev := lazymatch goal with |- ?a = ?b => let c := eval vm_compute in a in unify b c; vm_cast_no_check (@eq_refl _ c) end.
Ltac ev2 := lazymatch goal with |- ?a = (?x, ?y) => let c := eval vm_compute in a in lazymatch c with (?u, ?v) => unify x u; unify y v; vm_cast_no_check (@eq_refl _ c) end end.
Ltac xs := apply x_same; ev2.
Ltac red1 := match goal with |- ?g => let g' := eval cbv beta iota delta [m_buf m_read m_start m_off] in g in change g' end;
  try (match goal with |- (if ?c then _ else _) _ _ _ => let d := eval vm_compute in c in change c with d; cbv iota end);
  try (match goal with |- hbind (if ?c then _ else _) _ _ _ _ => let d := eval vm_compute in c in change c with d; cbv iota end).
Ltac xb t := eapply x_bind; [t|red1].
(** Sync without anything to write, and of data that fits in. *)
Ltac x_sync0 := unfold hSync; xb xs; xs.
Ltac x_sync1 := unfold hSync; xb xs; xb xs; xb xs; xb xs; xb xs; xb ltac:(eapply x_modify; [ev|ev|ev|ev]); xb ltac:(eapply x_fresh; [ev|ev|ev]); xb xs; xb xs; xs.
Ltac xc t := eapply x_call; [ev|ev|apply x_map; t|ev].
Ltac xd t := eapply x_call; [ev|ev|eapply x_map2; [t|reflexivity]|ev].

Definition bx : bytes := [x58; x62; x63; x64; x65].
Definition b5 : bytes := [x61; x62; x63; x64; x65].

Ltac xf c1 c2 := exists [c1; c2]; split; [|reflexivity]; change [c1; c2] with (concat [[c1]; [c2]]);
  match goal with |- file_dag ?n _ => let m := eval vm_compute in n in change n with m end;
  eapply fd_node with (fs := mkData (Some 2) None (Some 5) [3; 2] None None []);
  [discriminate|repeat constructor|vm_compute; reflexivity|now left|reflexivity|cbn [map lto]; repeat constructor|reflexivity|reflexivity].

Lemma snapshot_refuted : exists st1 rs1 st2 rs2 g,
  hrun bytewise wb (hstart full) [HGet abcde; HNew 0; HCall 0 MGetNode] rs1 st1 /\
  nth_error (h_held st1) 1 = Some g /\ file_content (shows (h_heap st1) g) b5 /\
  hrun bytewise wb st1 [HCall 0 (MTruncate 4); HCall 0 (MWrite [x58]); HCall 0 MSync; HCall 0 MSize] rs2 st2 /\
  rs2 = [Ok BDone; Ok (BInt 1); Ok BDone; Ok (BInt 4)] /\ file_content (shows (h_heap st2) g) bx.
Proof.
  eexists _, _, _, _, _. split.
  { econstructor; [apply x_get; [reflexivity|ev]|]. econstructor; [eapply x_new; [ev|ev]|].
    econstructor; [|apply hrun_nil]. xc ltac:(unfold hGetNode; xb x_sync0; xs). }
  split; [ev|]. split; [xf [x61; x62; x63] [x64; x65]|]. split.
  { econstructor; [xc ltac:(unfold hTruncate; xb x_sync0; xb xs; xb ltac:(eapply x_truncate; ev); xb xs; xs)|].
    econstructor; [xc ltac:(unfold hWrite; xb xs; xb xs; xb xs; xs)|]. econstructor; [xc x_sync1|]. econstructor; [xc xs|apply hrun_nil]. }
  split; [reflexivity|xf [x58; x62; x63] [x64; x65]].
Qed.

(** The node given to NewDagModifier changes, and then its CID is that of other links. *)
Lemma argument_refuted : exists st1 rs1 st2 rs2 o,
  hrun bytewise wb (hstart full) [HGet abcde] rs1 st1 /\ nth_error (h_held st1) 0 = Some o /\ shows (h_heap st1) o = abcde /\ obj_cid (h_heap st1) o = abcde /\
  hrun bytewise wb st1 [HNew 0; HCall 0 (MWrite [x58]); HCall 0 MSync] rs2 st2 /\
  rs2 = [Ok BDone; Ok (BInt 1); Ok BDone] /\ file_content (shows (h_heap st2) o) bx /\ obj_cid (h_heap st2) o = abcde.
Proof.
  eexists _, _, _, _, _. split.
  { econstructor; [apply x_get; [reflexivity|ev]|apply hrun_nil]. }
  split; [ev|]. split; [vm_compute; reflexivity|]. split; [vm_compute; reflexivity|]. split.
  { econstructor; [eapply x_new; [ev|ev]|]. econstructor; [xc ltac:(unfold hWrite; xb xs; xb xs; xb xs; xs)|]. econstructor; [xc x_sync1|apply hrun_nil]. }
  split; [reflexivity|]. split; [xf [x58; x62; x63] [x64; x65]|vm_compute; reflexivity].
Qed.

(** Two modifiers made from the same node: what is written to one is read from the other. *)
Lemma two_modifiers_refuted : exists st rs,
  hrun bytewise wb (hstart full) [HGet abcde; HNew 0; HNew 0; HCall 0 (MWrite [x58]); HCall 0 MSync; HCall 1 (MRead 5)] rs st /\
  rs = [Ok (BNode abcde); Ok BDone; Ok BDone; Ok (BInt 1); Ok BDone; Ok (BData bx None)] /\
  fst (mcall bytewise wb (MRead 5) (NewDagModifier abcde, h_world st)) = Ok (BData b5 None).
Proof.
  eexists _, _. split.
  { econstructor; [apply x_get; [reflexivity|ev]|]. econstructor; [eapply x_new; [ev|ev]|]. econstructor; [eapply x_new; [ev|ev]|].
    econstructor; [xc ltac:(unfold hWrite; xb xs; xb xs; xb xs; xs)|]. econstructor; [xc x_sync1|]. econstructor; [|apply hrun_nil]. xc ltac:(unfold hRead; xb x_sync0; xs). }
  split; vm_compute; reflexivity.
Qed.

(** ** Cases *)

Lemma frozen_case : exists st rs m ps st1 g,
  hrun bytewise wb (hstart full) [HGet abcde; HNew 0; HCall 0 MGetNode; HCall 0 (MWrite [x58])] rs st /\ h_mods st = [(m, ps)] /\ HasChanges m = true /\
  syncs MSync = true /\ hstep bytewise wb st (HCall 0 MSync) (Ok BDone) st1 /\ nth_error (h_held st) 1 = Some g /\
  file_content (shows (h_heap st) g) b5 /\ file_content (shows (h_heap st1) g) bx.
Proof.
  eexists _, _, _, _, _, _. split.
  { econstructor; [apply x_get; [reflexivity|ev]|]. econstructor; [eapply x_new; [ev|ev]|].
    econstructor; [xc ltac:(unfold hGetNode; xb x_sync0; xs)|]. econstructor; [xc ltac:(unfold hWrite; xb xs; xb xs; xb xs; xs)|apply hrun_nil]. }
  split; [reflexivity|]. split; [reflexivity|]. split; [reflexivity|]. split; [xd x_sync1|]. split; [ev|]. split; [xf [x61; x62; x63] [x64; x65]|xf [x58; x62; x63] [x64; x65]].
Qed.

Lemma quiet_case : exists st rs m ps st1 g,
  hrun bytewise wb (hstart full) [HGet abcde; HNew 0; HCall 0 MGetNode] rs st /\ nth_error (h_mods st) 0 = Some (m, ps) /\ HasChanges m = false /\
  writes (MRead 5) = false /\ hstep bytewise wb st (HCall 0 (MRead 5)) (Ok (BData b5 None)) st1 /\ nth_error (h_held st) 1 = Some g.
Proof.
  eexists _, _, _, _, _, _. split.
  { econstructor; [apply x_get; [reflexivity|ev]|]. econstructor; [eapply x_new; [ev|ev]|].
    econstructor; [xc ltac:(unfold hGetNode; xb x_sync0; xs)|apply hrun_nil]. }
  split; [reflexivity|]. split; [reflexivity|]. split; [reflexivity|]. split; [xd ltac:(unfold hRead; xb x_sync0; xs)|ev].
Qed.

Lemma separate_case : exists rs0 st,
  hrun bytewise wb (hstart full) (opening 0 [abcde; abcde]) rs0 st /\ exists rs w',
  apart_run bytewise wb full (map NewDagModifier [abcde; abcde]) [(0%nat, MWrite [x58]); (0%nat, MSync); (1%nat, MRead 5)] = Some (rs, w') /\
  rs = [Ok (BInt 1); Ok BDone; Ok (BData b5 None)].
Proof.
  eexists _, _. split.
  { econstructor; [apply x_get; [reflexivity|ev]|]. econstructor; [eapply x_new; [ev|ev]|]. econstructor; [apply x_get; [reflexivity|ev]|]. econstructor; [eapply x_new; [ev|ev]|apply hrun_nil]. }
  eexists _, _. split; [vm_compute; reflexivity|reflexivity].
Qed.

Lemma shared_case : exists rs0 st rs st',
  hrun bytewise wb (hstart full) [HGet abcde; HNew 0] rs0 st /\
  hrun bytewise wb st (map (HCall 0) [MSeek 2 0; MWrite [x58]; MGetNode; MWrite [x59]; MGetNode; MSeek 0 0; MRead 9]) rs st' /\
  all_allowed (mkF [x61; x62; x63; x64; x65] 0 false NoReader true) [MSeek 2 0; MWrite [x58]; MGetNode; MWrite [x59]; MGetNode; MSeek 0 0; MRead 9].
Proof.
  assert (R : exists rs0 st, hrun bytewise wb (hstart full) (opening 0 [abcde]) rs0 st).
  { eexists _, _. econstructor; [apply x_get; [reflexivity|ev]|]. econstructor; [eapply x_new; [ev|ev]|apply hrun_nil]. }
  destruct R as (rs0 & st & R).
  destruct (separate_total bytewise wb full [abcde] rs0 st (map (pair O) [MSeek 2 0; MWrite [x58]; MGetNode; MWrite [x59]; MGetNode; MSeek 0 0; MRead 9]) R) as (rs & st' & R2).
  { intros i op H. apply in_map_iff in H as (? & [= <- <-] & _). cbn. lia. }
  exists rs0, st, rs, st'. split; [exact R|]. split; [exact R2|]. apply all_allowedb_sound. vm_compute. reflexivity.
Qed.

Lemma cid_case : exists st rs st1 rs1 st2 st3,
  hrun bytewise wb (hstart full) [HGet abcde; HNew 0; HCall 0 MGetNode] rs st /\ hstep bytewise wb st (HCid 1) (Ok (BNode abcde)) st1 /\
  hrun bytewise wb st1 [HCall 0 (MWrite [x58]); HCall 0 MSync] rs1 st2 /\ hstep bytewise wb st2 (HCid 1) (Ok (BNode abcde)) st3.
Proof.
  eexists _, _, _, _, _, _. split.
  { econstructor; [apply x_get; [reflexivity|ev]|]. econstructor; [eapply x_new; [ev|ev]|].
    econstructor; [xc ltac:(unfold hGetNode; xb x_sync0; xs)|apply hrun_nil]. }
  split; [eapply x_cid; ev|]. split.
  { econstructor; [xc ltac:(unfold hWrite; xb xs; xb xs; xb xs; xs)|]. econstructor; [xc x_sync1|apply hrun_nil]. }
  eapply x_cid; ev.
Qed.
