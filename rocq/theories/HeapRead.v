(** Reading and walking on objects. *)
From Verif Require Import Base Pb FSNode Dag Builder HashBits Bitfield Hamt DagProofs HeapHamt HeapRep HeapOps HeapGet HeapSwap HeapRun.

(** ** Find *)
(** What a read leaves: the shard [s'], and a value of it. *)
Definition found {TG : Tag} h a F G K key (r : option link) (x : option laddr) (s' : shard) (h' : heap) : Prop :=
  exists F' G' K' X, owns h' a s' F' G' K' /\ sub (length (h_shards h)) F' F /\ sub (length (h_links h)) G' G /\ sub (length (h_links h)) K' K /\ kept h h' F G /\ hval h' key x r X /\ incl X G' /\
    (forall T' : Tag, @owns T' h' a s' F' G' K' -> @hval T' h' key x r X).
Lemma set_self (s : shard) s1 child s2 i : s_slots s = s1 ++ SShard child :: s2 -> length s1 = Z.to_nat i -> set_child (SShard child) i s = s.
Proof. intros Es L. unfold set_child, set_slots. rewrite Es, <- L, set_nth_mid, <- Es. destruct s; reflexivity. Qed.

(** The objects do not depend on the watched link. *)
Lemma hval_tags (T1 T2 : Tag) h key key' o v v' G G' : @hval T1 h key o v G -> @hval T2 h key' o v' G' -> G = G'.
Proof. unfold hval. destruct o, v, v'; try contradiction; [intros [-> _] [-> _]; reflexivity|now intros -> ->]. Qed.
Lemma hrep_tags (T1 T2 : Tag) h : (forall a s F G K, @hrep T1 h a s F G K -> forall s' F' G' K', @hrep T2 h a s' F' G' K' -> F = F' /\ G = G' /\ K = K') /\
  (forall xs ss F G K, @hreps T1 h xs ss F G K -> forall ss' F' G' K', @hreps T2 h xs ss' F' G' K' -> F = F' /\ G = G' /\ K = K').
Proof.
  apply hrep_both.
  - intros a c s F G0 G K Hc _ Hv _ IH s' F' G' K' H. inversion H as [? c' ? F'' G0' G'' ? Hc' _ Hv' Hr]; subst. rewrite Hc in Hc'. injection Hc' as <-. destruct (IH _ _ _ _ Hr) as (-> & -> & ->). rewrite (hval_tags _ _ _ _ _ _ _ _ _ _ Hv Hv'). auto.
  - intros ss' F' G' K' H. inversion H. auto.
  - intros la l xs ss F G K _ _ IH ss' F' G' K' H. inversion H; subst. edestruct IH as (-> & -> & ->); [eassumption|auto].
  - intros a s xs ss F1 G1 K1 F2 G2 K2 _ IH1 _ IH2 ss' F' G' K' H. inversion H; subst. edestruct IH1 as (-> & -> & ->); [eassumption|]. edestruct IH2 as (-> & -> & ->); [eassumption|auto].
Qed.
Lemma det_tags (T1 T2 : Tag) h a s s' F G K F' G' K' : @hrep T1 h a s F G K -> @hrep T2 h a s' F' G' K' -> F = F' /\ G = G' /\ K = K'.
Proof. intros H1 H2. eapply (proj1 (hrep_tags T1 T2 h)); eassumption. Qed.
Lemma hrep_det {TG : Tag} h : (forall a s F G K, hrep h a s F G K -> forall s' F' G' K', hrep h a s' F' G' K' -> F = F' /\ G = G' /\ K = K') /\
  (forall xs ss F G K, hreps h xs ss F G K -> forall ss' F' G' K', hreps h xs ss' F' G' K' -> F = F' /\ G = G' /\ K = K').
Proof.
  apply hrep_both.
  - intros a c s F G0 G K Hc _ Hv _ IH s' F' G' K' H. inversion H as [? c' ? F'' G0' G'' ? Hc' _ Hv' Hr]; subst. rewrite Hc in Hc'. injection Hc' as <-. destruct (IH _ _ _ _ Hr) as (-> & -> & ->). rewrite (hval_det _ _ _ _ _ _ _ _ _ Hv Hv'). auto.
  - intros ss' F' G' K' H. inversion H. auto.
  - intros la l xs ss F G K _ _ IH ss' F' G' K' H. inversion H; subst. edestruct IH as (-> & -> & ->); [eassumption|auto].
  - intros a s xs ss F1 G1 K1 F2 G2 K2 _ IH1 _ IH2 ss' F' G' K' H. inversion H; subst. edestruct IH1 as (-> & -> & ->); [eassumption|]. edestruct IH2 as (-> & -> & ->); [eassumption|auto].
Qed.

Theorem find_all fuel : forall (TG : Tag) w hv key h a s F G K, owns h a s F G K ->
  sim (found h a F G K key) (fun s' h' => moved [] h h' a s' F G K) (getValue fuel w hv key s) (hgetValue fuel w hv key a h).
Proof.
  induction fuel as [|f IH]; intros TG w hv key h a s F G K O; [exact I|].
  destruct (owns_parts _ _ _ _ _ _ O) as (c & Fs & G0 & Gs & Hc & Hh & _). cbn [getValue hgetValue]. rewrite bind_get, (get_cell_ok h a c _ Hc), (head_lg c s Hh). pose proof Hh as (Hz & Hb & Hf & _). rewrite Hf.
  pose proof (owns_moved _ _ _ _ _ _ O) as Same.
  rewrite !bind_lift. destruct (Next hv (tableSizeLg2 s)) as [[idx hv1]|e| |]; [|split; [reflexivity|exact Same]|exact I|exact I]. cbv beta iota. unfold has. rewrite !bind_lift. destruct (bf_bit (s_bf s) idx) as [b|e| |]; [|split; [reflexivity|exact Same]|exact I|exact I].
  destruct b; [|split; [reflexivity|exact Same]].
  unfold sliceIndex. rewrite !bind_lift. destruct (bf_before (s_bf s) idx) as [i|e| |] eqn:Eb; [|split; [reflexivity|exact Same]|exact I|exact I].
  pose proof (sim_cases _ _ _ _ (hget_sim w h a s F G K i O)) as Sg.
  destruct (get_child w i s) as [[child|e| |] s'] eqn:Eg.
  2:{ destruct Sg as (h1 & E1 & M). rewrite (bind_run _ _ _ _ _ E1), (bind_run _ _ _ _ _ Eg). split; [reflexivity|exact M]. }
  2:{ destruct Sg as (h1 & E1). rewrite (bind_run _ _ _ _ _ E1), (bind_run _ _ _ _ _ Eg). exact I. }
  2:{ destruct Sg as (h1 & E1). rewrite (bind_run _ _ _ _ _ E1), (bind_run _ _ _ _ _ Eg). exact I. }
  destruct Sg as (ch & h1 & E1 & M1 & En & Sl). rewrite (bind_run _ _ _ _ _ E1), (bind_run _ _ _ _ _ Eg). clear E1 Eg. pose proof M1 as (F1 & G1 & K1 & O1 & SF & SG & SK & Hk & _).
  destruct (at_child_of h1 a s' F1 G1 K1 i child ch O1 En Sl) as (c1 & x1 & x2 & s1 & s2 & G01 & F11 & G11 & K11 & Fc & Gc & Kc & F12 & G12 & K12 & A).
  destruct (child_owns _ _ _ _ _ _ _ _ _ _ _ _ _ _ _ _ _ _ _ _ _ _ _ _ O1 A) as (Oc & _ & _). destruct (owns_parts _ _ _ _ _ _ Oc) as (cc & Fv & Gv & Gv' & Hcc & Hhc & Hvc & _ & _ & EGc & _ & _ & _ & _ & Eval). rewrite (get_cell_ok h1 ch cc _ Hcc), Eval. pose proof Hhc as (_ & _ & _ & Hkey). rewrite Hkey.
  destruct (isValueNode child).
  - destruct (bytes_eqb (s_key child) key) eqn:Eq; [|split; [reflexivity|exact M1]]. apply bytes_eqb_eq in Eq. rewrite Eq in Hvc. unfold ret, sim. cbn [fst snd]. exists F1, G1, K1, Gv. repeat (split; [assumption|]). split.
    { rewrite (ac_G _ _ _ _ _ _ _ _ _ _ _ _ _ _ _ _ _ _ _ _ _ _ _ _ A), EGc. intros z Hz0. rewrite !in_app_iff. tauto. }
    intros T' O'. destruct (@at_child_of T' h1 a s' F1 G1 K1 i child ch O' En Sl) as (d1 & y1 & y2 & t1 & t2 & H01 & F1' & H1 & L1 & Fd & Gd & Kd & F2' & H2 & L2 & A').
    destruct (@child_owns T' _ _ _ _ _ _ _ _ _ _ _ _ _ _ _ _ _ _ _ _ _ _ _ _ O' A') as (Od & _ & _). destruct (@owns_parts T' _ _ _ _ _ _ Od) as (cd & _ & Gw & _ & Hcd & _ & Hvd & _). rewrite Hcc in Hcd. injection Hcd as <-. rewrite Eq in Hvd.
    unfold hval in Hvc, Hvd |- *. destruct (c_val cc), (s_val child); try contradiction; [|assumption]. destruct Hvc as (-> & _). destruct Hvd as (_ & Hvd). auto.
  - pose proof (sim_cases _ _ _ _ (IH TG w hv1 key h1 ch child Fc Gc Kc Oc)) as S1.
    pose proof (eq_refl (on_child i child (getValue f w hv1 key) s')) as El. unfold on_child in El at 2. pose proof (kp_n _ _ _ _ Hk) as Bn. pose proof (kp_m _ _ _ _ Hk) as Bm.
    assert (Up : forall X c' h2, moved X h1 h2 ch c' Fc Gc Kc -> X = [] -> moved [] h h2 a (set_child (SShard c') i s') F G K).
    { intros X c' h2 (F' & G' & K' & O' & SF' & SG' & SK' & Hk' & _) _. eapply moved_trans; [exact Hk|exact SF|exact SG|exact SK| |exact O1]. eapply (child_put h1 h2 [] [] a s'); [exact O1|exact A|intros z []|exact O'|exact SF'|exact SG'|exact SK'|exact Hk'|intros z []]. }
    destruct (getValue f w hv1 key child) as [[r|e| |] c'].
    2:{ destruct S1 as (h2 & E2 & P). rewrite E2, (bind_run _ _ _ _ _ El). split; [reflexivity|]. cbn [snd]. eapply Up; [exact P|reflexivity]. }
    2:{ destruct S1 as (h2 & E2). rewrite E2, (bind_run _ _ _ _ _ El). exact I. }
    2:{ destruct S1 as (h2 & E2). rewrite E2, (bind_run _ _ _ _ _ El). exact I. }
    destruct S1 as (x & h2 & E2 & (F' & G' & K' & X & O' & SF' & SG' & SK' & Hk' & Hx & IX & Tag')). rewrite E2, (bind_run _ _ _ _ _ El). unfold ret, sim. cbn [fst snd].
    assert (M2 : moved [] h1 h2 a (set_child (SShard c') i s') F1 G1 K1) by (eapply (child_put h1 h2 [] [] a s'); [exact O1|exact A|intros z []|exact O'|exact SF'|exact SG'|exact SK'|exact Hk'|intros z []]).
    destruct M2 as (F2 & G2 & K2 & O2 & SF2 & SG2 & SK2 & Hk2 & _).
    exists F2, G2, K2, X. split; [exact O2|]. split; [eapply sub_trans; eauto|]. split; [eapply sub_trans; eauto|]. split; [eapply sub_trans; eauto|]. split; [eapply kept_trans; eauto|]. split; [exact Hx|].
    assert (En2 : nth_error (s_slots (set_child (SShard c') i s')) (Z.to_nat i) = Some (SShard c')) by (unfold set_child; cbn [set_slots s_slots]; eapply set_nth_same, En).
    assert (Sl2 : slot_at h2 a i (HShard ch)).
    { destruct (child_owns _ _ _ _ _ _ _ _ _ _ _ _ _ _ _ _ _ _ _ _ _ _ _ _ O1 A) as (_ & _ & Na). destruct Sl as (Hi & c0 & Hc0 & Ec0). split; [exact Hi|]. exists c0. split; [|exact Ec0]. apply (kp_s _ _ _ _ Hk'); assumption. }
    destruct (at_child_of h2 a _ F2 G2 K2 i c' ch O2 En2 Sl2) as (c2 & y1 & y2 & t1 & t2 & G02 & F12' & G12' & K12' & Fd & Gd & Kd & F22 & G22 & K22 & A2).
    destruct (child_owns _ _ _ _ _ _ _ _ _ _ _ _ _ _ _ _ _ _ _ _ _ _ _ _ O2 A2) as (Od & _ & _). destruct (proj1 (hrep_det h2) _ _ _ _ _ (ow_rep _ _ _ _ _ _ O') _ _ _ _ (ow_rep _ _ _ _ _ _ Od)) as (_ & -> & _).
    split; [intros z Hz0; rewrite (ac_G _ _ _ _ _ _ _ _ _ _ _ _ _ _ _ _ _ _ _ _ _ _ _ _ A2), !in_app_iff; auto|].
    intros T' O''. destruct (@at_child_of T' h2 a _ F2 G2 K2 i c' ch O'' En2 Sl2) as (d1 & u1 & u2 & v1 & v2 & H01 & F1'' & H1 & L1 & Fe & Ge & Ke & F2'' & H2 & L2 & A').
    destruct (@child_owns T' _ _ _ _ _ _ _ _ _ _ _ _ _ _ _ _ _ _ _ _ _ _ _ _ O'' A') as (Oe & _ & _). apply Tag'. pose proof (ow_rep _ _ _ _ _ _ Oe) as Re. pose proof (ow_rep _ _ _ _ _ _ O') as Ro.
    assert (U : Fe = F' /\ Ge = Gd /\ Ke = K') by exact (det_tags T' TG h2 ch c' c' _ _ _ _ _ _ Re Ro). destruct U as (<- & <- & <-). exact Oe.
Qed.
