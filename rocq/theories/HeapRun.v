(** swapValue on objects: the induction. *)
From Verif Require Import Base Pb FSNode Dag Builder HashBits Bitfield Hamt DagProofs HeapHamt HeapRep HeapOps HeapGet HeapSwap.

(** What holds of one run of swapValue, with a link [v] for the new value. *)
Definition swap_ok (hash : bytes -> bytes) (fuel : nat) : Prop := forall (TG : Tag) w hv key value v V h a s F G K,
  owns h a s F G K -> hval h key v value V -> (forall z, In z V -> ~ In z G /\ ~ In z K) ->
  sim (hpost h a F G K V key v value) (hstep [] h a F G K V key v value) (swapValue hash fuel w hv key value s) (hswapValue hash fuel w hv key v a h).

Lemma sim_cases {A B S T} (R : A -> B -> S -> T -> Prop) (E : S -> T -> Prop) (x : res A * S) (y : res B * T) : sim R E x y ->
  match x with
  | (Ok a, s) => exists b t, y = (Ok b, t) /\ R a b s t
  | (Err e, s) => exists t, y = (Err e, t) /\ E s t
  | (Panic, _) => exists t, y = (Panic, t)
  | (Fuel, _) => exists t, y = (Fuel, t)
  end.
Proof. destruct x as [[a|e| |] s], y as [[b|e'| |] t]; unfold sim; cbn; try contradiction; eauto. intros [<- H]. eauto. Qed.

Lemma bind_run {S A B} (m : M S A) (k : A -> M S B) s r s' : m s = (r, s') -> bind m k s = match r with Ok a => k a s' | Err e => (Err e, s') | Panic => (Panic, s') | Fuel => (Fuel, s') end.
Proof. intros H. unfold bind. rewrite H. destruct r; reflexivity. Qed.

(** ** The fork of a value *)
Section Fork.
  Variable hash : bytes -> bytes.
  Variable f : nat.
  Hypothesis IH : swap_ok hash f.
  Definition fork_good (TG : Tag) h V V2 key2 v2 value2 (fa : saddr) (s' : shard) (h' : heap) : Prop :=
    exists F' G' K', owns h' fa s' F' G' K' /\ sub (length (h_shards h)) F' [] /\ sub (length (h_links h)) G' (V ++ V2) /\ sub (length (h_links h)) K' [] /\ kept h h' [] (V ++ V2) /\ hval h' key2 v2 value2 V2.
  Lemma fork_run (TG : Tag) w hv1 hv2 key value v V key2 value2 v2 V2 h h1 fa fr : (forall x, t_la = Some x -> (x < length (h_links h))%nat) -> fa = length (h_shards h) -> kept h h1 [] [] -> hrep h1 fa fr [fa] [] [] ->
    hval h key v value V -> hval h key2 v2 value2 V2 -> (forall z, In z V2 -> ~ In z V) ->
    match swapValue hash f w hv1 key value fr with
    | (Ok _, f1) => exists r1 h2, hswapValue hash f w hv1 key v fa h1 = (Ok r1, h2) /\
        match swapValue hash f w hv2 key2 value2 f1 with
        | (Ok _, f2) => exists r2 h3, hswapValue hash f w hv2 key2 v2 fa h2 = (Ok r2, h3) /\ fork_good TG h V V2 key2 v2 value2 fa f2 h3
        | (Err e, _) => exists h3, hswapValue hash f w hv2 key2 v2 fa h2 = (Err e, h3) /\ kept h h3 [] (V ++ V2) /\ hval h3 key2 v2 value2 V2
        | (Panic, _) => exists h3, hswapValue hash f w hv2 key2 v2 fa h2 = (Panic, h3)
        | (Fuel, _) => exists h3, hswapValue hash f w hv2 key2 v2 fa h2 = (Fuel, h3)
        end
    | (Err e, _) => exists h2, hswapValue hash f w hv1 key v fa h1 = (Err e, h2) /\ kept h h2 [] (V ++ V2) /\ hval h2 key2 v2 value2 V2
    | (Panic, _) => exists h2, hswapValue hash f w hv1 key v fa h1 = (Panic, h2)
    | (Fuel, _) => exists h2, hswapValue hash f w hv1 key v fa h1 = (Fuel, h2)
    end.
  Proof.
    intros Ht Hfa K01 Hr Hv Hv2 D2. pose proof (kp_m _ _ _ _ K01) as Bm. pose proof (kp_n _ _ _ _ K01) as Bn.
    assert (O1 : owns h1 fa fr [fa] [] []) by (constructor; [exact Hr|repeat constructor; intros []|constructor|intros z []|intros x Hx; specialize (Ht x Hx); lia]).
    assert (Hv' : hval h1 key v value V) by (eapply hval_frame; [exact Hv|exact K01|intros z _ []]).
    pose proof (sim_cases _ _ _ _ (IH TG w hv1 key value v V h1 fa fr [fa] [] [] O1 Hv' ltac:(intros z _; split; intros []))) as S1.
    assert (First : forall X s' h2, hstep X h1 fa [fa] [] [] V key v value s' h2 -> exists F' G' K', owns h2 fa s' F' G' K' /\ sub (length (h_shards h)) F' [] /\ sub (length (h_links h)) G' V /\ sub (length (h_links h)) K' [] /\ kept h h2 [] V /\ hval h2 key2 v2 value2 V2).
    { intros X s' h2 ((F' & G' & K' & O2 & SF & SG & SK & Hk & _) & _). rewrite app_nil_r in SG, Hk. exists F', G', K'. split; [exact O2|].
      assert (Hk2 : kept h h2 [] V). { eapply kept_trans; [eapply kept_weaken; [exact K01|apply incl_refl|intros z []]|exact Hk|intros z [<-|[]]; right; lia|apply sub_refl]. }
      split; [eapply (sub_trans _ _ _ [fa]); [exact SF|intros z [<-|[]]; right; lia|exact Bn]|]. split; [eapply sub_trans; [exact SG|apply sub_refl|exact Bm]|]. split; [eapply sub_trans; [exact SK|apply sub_refl|exact Bm]|]. split; [exact Hk2|].
      eapply hval_frame; [exact Hv2|exact Hk2|exact D2]. }
    destruct (swapValue hash f w hv1 key value fr) as [[r|e| |] f1].
    2:{ destruct S1 as (h2 & E2 & P). exists h2. split; [exact E2|]. destruct (First _ _ _ P) as (F' & G' & K' & _ & _ & _ & _ & Hk & Hv3). split; [eapply kept_weaken; [exact Hk|apply incl_refl|apply incl_appl, incl_refl]|exact Hv3]. }
    2:{ destruct S1 as (h2 & E2). now exists h2. }
    2:{ destruct S1 as (h2 & E2). now exists h2. }
    destruct S1 as (r1 & h2 & E2 & (X & _ & _ & P)). exists r1, h2. split; [exact E2|]. destruct (First _ _ _ P) as (F' & G' & K' & O2 & SF & SG & SK & Hk & Hv3).
    assert (DV : forall z, In z V2 -> ~ In z G' /\ ~ In z K').
    { intros z Hz. pose proof (hval_bound _ _ _ _ _ Hv2 z Hz). split; intros Hi; [destruct (SG z Hi) as [U|U]; [exact (D2 z Hz U)|lia]|destruct (SK z Hi) as [[]|U]; lia]. }
    pose proof (kp_m _ _ _ _ Hk) as Bm2. pose proof (kp_n _ _ _ _ Hk) as Bn2.
    pose proof (sim_cases _ _ _ _ (IH TG w hv2 key2 value2 v2 V2 h2 fa f1 F' G' K' O2 Hv3 DV)) as S2.
    assert (Sec : forall X s' h3, hstep X h2 fa F' G' K' V2 key2 v2 value2 s' h3 -> fork_good TG h V V2 key2 v2 value2 fa s' h3).
    { intros X' s' h3 ((F3 & G3 & K3 & O3 & SF3 & SG3 & SK3 & Hk3 & _) & Hv4). 
      assert (SGG : sub (length (h_links h)) (V2 ++ G') (V ++ V2)). { intros z Hz. apply in_app_iff in Hz as [Hz|Hz]; [left; apply in_or_app; now right|]. destruct (SG z Hz); [left; apply in_or_app; now left|now right]. }
      exists F3, G3, K3. split; [exact O3|]. split; [eapply sub_trans; eauto|]. split; [eapply sub_trans; eauto|]. split; [eapply sub_trans; eauto|]. split; [|exact Hv4].
      eapply kept_trans; [eapply kept_weaken; [exact Hk|apply incl_refl|apply incl_appl, incl_refl]|exact Hk3|exact SF|exact SGG]. }
    destruct (swapValue hash f w hv2 key2 value2 f1) as [[r2|e| |] f2].
    - destruct S2 as (x2 & h3 & E3 & (X' & _ & _ & P')). exists x2, h3. split; [exact E3|]. eapply Sec, P'.
    - destruct S2 as (h3 & E3 & P'). exists h3. split; [exact E3|]. destruct (Sec _ _ _ P') as (_ & _ & _ & _ & _ & _ & _ & U1 & U2). auto.
    - destruct S2 as (h3 & E3). now exists h3.
    - destruct S2 as (h3 & E3). now exists h3.
  Qed.
End Fork.

Lemma bind_get {B} (k : shard -> M shard B) s : bind get_shard k s = k s s.
Proof. reflexivity. Qed.
Lemma step_refl {TG : Tag} h a s F G K V key v value : owns h a s F G K -> hval h key v value V -> (forall z, In z V -> ~ In z G /\ ~ In z K) -> hstep [] h a F G K V key v value s h.
Proof. intros O Hv HV. split; [|exact Hv]. apply moved_alloc; [exact O|apply kept_refl|exact HV]. Qed.
Lemma post_none {TG : Tag} h a F G K V key v value s' h' : hstep [] h a F G K V key v value s' h' -> hpost h a F G K V key v value None None s' h'.
Proof. intros H. exists []. split; [reflexivity|]. split; [intros z []|exact H]. Qed.

(** One child of the shard at [a]. *)
Record at_child {TG : Tag} (h : heap) (a : saddr) (s : shard) (i : Z) (ch : saddr) (child : shard) (F : list saddr) (G K : list laddr) (c : scell) (x1 x2 : list hslot) (s1 s2 : list (slot shard)) (G0 : list laddr)
  (F1 : list saddr) (G1 K1 : list laddr) (Fc : list saddr) (Gc Kc : list laddr) (F2 : list saddr) (G2 K2 : list laddr) : Prop := {
  ac_c : nth_error (h_shards h) a = Some c; ac_h : chead c s; ac_v : hval h (s_key s) (c_val c) (s_val s) G0;
  ac_x : c_slots c = x1 ++ HShard ch :: x2; ac_s : s_slots s = s1 ++ SShard child :: s2; ac_l1 : length x1 = Z.to_nat i; ac_l2 : length s1 = Z.to_nat i;
  ac_F : F = a :: F1 ++ Fc ++ F2; ac_G : G = G0 ++ G1 ++ Gc ++ G2; ac_K : K = K1 ++ Kc ++ K2;
  ac_1 : hreps h x1 s1 F1 G1 K1; ac_r : hrep h ch child Fc Gc Kc; ac_2 : hreps h x2 s2 F2 G2 K2; ac_i : 0 <= i }.
Lemma at_child_of {TG : Tag} h a s F G K i child ch : owns h a s F G K -> nth_error (s_slots s) (Z.to_nat i) = Some (SShard child) -> slot_at h a i (HShard ch) ->
  exists c x1 x2 s1 s2 G0 F1 G1 K1 Fc Gc Kc F2 G2 K2, at_child h a s i ch child F G K c x1 x2 s1 s2 G0 F1 G1 K1 Fc Gc Kc F2 G2 K2.
Proof.
  intros O En (Hi & c' & Hc' & Enx). destruct (focus _ _ _ _ _ _ _ _ O En) as (c & x & x1 & x2 & s1 & s2 & G0 & F1 & G1 & K1 & Fc & Gc & Kc & F2 & G2 & K2 & Hc & Hh & Hv & Ex & Es & L1 & L2 & EF & EG & EK & R1 & Rc & R2). rewrite Hc in Hc'. injection Hc' as <-.
  rewrite Ex, nth_error_app2, <- L1, Nat.sub_diag in Enx by lia. cbn in Enx. injection Enx as ->.
  exists c, x1, x2, s1, s2, G0, F1, G1, K1, Fc, Gc, Kc, F2, G2, K2. constructor; auto.
  inversion Rc; subst. match goal with H : hreps h [] [] _ _ _ |- _ => inversion H; subst end. rewrite !app_nil_r. assumption.
Qed.
Lemma child_owns {TG : Tag} h a s i ch child F G K c x1 x2 s1 s2 G0 F1 G1 K1 Fc Gc Kc F2 G2 K2 : owns h a s F G K -> at_child h a s i ch child F G K c x1 x2 s1 s2 G0 F1 G1 K1 Fc Gc Kc F2 G2 K2 -> owns h ch child Fc Gc Kc /\ a <> ch /\ ~ In a Fc.
Proof.
  intros [_ OF OG OK_ OT] [? ? ? ? ? ? ? EF EG EK ? Rc ? ?]. subst F G K.
  assert (Ha : ~ In a Fc) by (inversion OF; subst; rewrite !in_app_iff in *; tauto). split; [constructor|].
  - exact Rc.
  - rewrite app_comm_cons in OF. clear - OF. revert OF. generalize (a :: F1). intros P OF. induction P as [|p P IHP]; [|inversion OF; auto]. cbn in OF. clear - OF. induction Fc as [|z Fc IH]; [constructor|]. inversion OF; subst. rewrite in_app_iff in *. constructor; [tauto|auto].
  - rewrite app_assoc in OG. clear - OG. revert OG. generalize (G0 ++ G1). intros P OG. induction P as [|p P IHP]; [|inversion OG; auto]. cbn in OG. clear - OG. induction Gc as [|z Gc IH]; [constructor|]. inversion OG; subst. rewrite in_app_iff in *. constructor; [tauto|auto].
  - intros z Hg Hk. apply (OK_ z); rewrite !in_app_iff; tauto.
  - exact OT.
  - split; [|exact Ha]. intros <-. apply Ha. inversion Rc; subst. now left.
Qed.
(** The child has been changed in place. *)
Lemma child_put {TG : Tag} h h' X V a s i ch child child' F G K c x1 x2 s1 s2 G0 F1 G1 K1 Fc Gc Kc F2 G2 K2 Fc' Gc' Kc' : owns h a s F G K -> at_child h a s i ch child F G K c x1 x2 s1 s2 G0 F1 G1 K1 Fc Gc Kc F2 G2 K2 ->
  (forall z, In z V -> ~ In z G /\ ~ In z K) -> owns h' ch child' Fc' Gc' Kc' -> sub (length (h_shards h)) Fc' Fc -> sub (length (h_links h)) Gc' (V ++ Gc) -> sub (length (h_links h)) Kc' Kc -> kept h h' Fc (V ++ Gc) ->
  (forall z, In z X -> (In z Gc \/ (length (h_links h) <= z)%nat) /\ ~ In z Gc' /\ ~ In z Kc') ->
  moved X h h' a (set_child (SShard child') i s) F (V ++ G) K.
Proof.
  intros O A HV O' SF SG SK Hk HX. destruct (child_owns _ _ _ _ _ _ _ _ _ _ _ _ _ _ _ _ _ _ _ _ _ _ _ _ O A) as (_ & Na & Ha). destruct A as [Hc Hh Hv Ex Es L1 L2 -> -> -> R1 Rc R2 Hi].
  destruct O' as [Rc' OF OG OK_ OT].
  apply (refocus_gen h h' X V a s _ c c [HShard ch] x1 x2 s1 s2 [SShard child'] G0 F1 G1 K1 Fc Gc Kc F2 G2 K2 Fc' Gc' Kc'); auto.
  - unfold set_child. cbn [set_slots s_slots]. rewrite Es, <- L2. apply set_nth_mid.
  - eapply kept_weaken; [exact Hk|intros z Hz; now right|apply incl_refl].
  - apply (kp_s _ _ _ _ Hk); assumption.
  - rewrite <- (app_nil_r Fc'), <- (app_nil_r Gc'), <- (app_nil_r Kc'). constructor; [exact Rc'|constructor].
Qed.
(** Another child has been put there. *)
Lemma child_set {TG : Tag} h h1 X V a s i ch child x' y' F G K c x1 x2 s1 s2 G0 F1 G1 K1 Fc Gc Kc F2 G2 K2 Fc' Gc' Kc' : owns h a s F G K -> at_child h a s i ch child F G K c x1 x2 s1 s2 G0 F1 G1 K1 Fc Gc Kc F2 G2 K2 ->
  (forall z, In z V -> ~ In z G /\ ~ In z K) -> hreps h1 [x'] [y'] Fc' Gc' Kc' -> NoDup Fc' -> NoDup Gc' -> (forall z, In z Gc' -> In z Kc' -> False) ->
  sub (length (h_shards h)) Fc' Fc -> sub (length (h_links h)) Gc' (V ++ Gc) -> sub (length (h_links h)) Kc' Kc -> kept h h1 Fc (V ++ Gc) ->
  (forall z, In z X -> (In z Gc \/ (length (h_links h) <= z)%nat) /\ ~ In z Gc' /\ ~ In z Kc') ->
  exists h2, hset x' i a h1 = (Ok tt, h2) /\ kept h1 h2 [a] [] /\ moved X h h2 a (set_child y' i s) F (V ++ G) K.
Proof.
  intros O A HV Rx NF NG NK SF SG SK Hk HX. destruct (child_owns _ _ _ _ _ _ _ _ _ _ _ _ _ _ _ _ _ _ _ _ _ _ _ _ O A) as (_ & Na & Ha). destruct A as [Hc Hh Hv Ex Es L1 L2 -> -> -> R1 Rc R2 Hi].
  assert (Hc1 : nth_error (h_shards h1) a = Some c) by (apply (kp_s _ _ _ _ Hk); assumption). unfold hset. rewrite (get_cell_ok h1 a c _ Hc1). unfold put_cell. eexists. split; [reflexivity|]. set (h2 := mkHeap _ _). assert (K2' : kept h1 h2 [a] []) by apply put_kept. split; [exact K2'|].
  assert (Ei : i = zlen x1) by (unfold zlen; lia). rewrite Ei.
  apply (refocus h h2 X V a s c (HShard ch) x' x1 x2 s1 s2 (SShard child) y' G0 F1 G1 K1 Fc Gc Kc F2 G2 K2 Fc' Gc' Kc'); auto.
  - congruence.
  - eapply kept_trans; [eapply kept_weaken; [exact Hk|intros z Hz; now right|apply incl_refl]|exact K2'|intros z [<-|[]]; left; now left|intros z []].
  - cbn [h2 h_shards]. rewrite <- Ei. eapply set_nth_same, Hc1.
  - apply (proj2 (hrep_frame _ _ _ _ K2')); [exact Rx| |intros z _ []|intros z _ []]. intros z Hz [<-|[]]. destruct (SF a Hz) as [U|U]; [contradiction|]. apply nth_lt in Hc. lia.
Qed.

Lemma hval_det {TG : Tag} h h' key key' o v v' G G' : hval h key o v G -> hval h' key' o v' G' -> G = G'.
Proof. unfold hval. destruct o, v, v'; try contradiction; intros A B; [destruct A as [-> _]; destruct B as [-> _]; reflexivity|subst; reflexivity]. Qed.
Lemma hval_nodup {TG : Tag} h key o v G : hval h key o v G -> NoDup G.
Proof. unfold hval. destruct o, v; try contradiction; [intros [-> _]; repeat constructor; intros []|intros ->; constructor]. Qed.
Lemma owns_parts {TG : Tag} h a s F G K : owns h a s F G K -> exists c F' G0 G', nth_error (h_shards h) a = Some c /\ chead c s /\ hval h (s_key s) (c_val c) (s_val s) G0 /\ hreps h (c_slots c) (s_slots s) F' G' K /\ F = a :: F' /\ G = G0 ++ G' /\ ~ In a F' /\ NoDup F' /\ NoDup G' /\ (forall z, In z G0 -> ~ In z G') /\ c_isValue c = isValueNode s.
Proof.
  intros O. destruct (owns_cell _ _ _ _ _ _ O) as (c & F' & G0 & G' & Hc & Hh & Hv & Hr & EF & EG). exists c, F', G0, G'. repeat (split; [assumption|]). destruct O as [R OF OG _ _]. subst F G. inversion OF; subst.
  split; [assumption|]. split; [assumption|]. split; [clear - OG; induction G0; [exact OG|inversion OG; auto]|]. split; [|eapply value_eq; eassumption]. intros z Hz. rewrite <- (app_nil_r G') in OG. apply (nodup_in_mid [] G0 (G') z); [|exact Hz]. now rewrite app_nil_r in OG.
Qed.

(** A value is replaced. *)
Lemma case_set {TG : Tag} h a s i ch child F G K c x1 x2 s1 s2 G0 F1 G1 K1 Fc Gc Kc F2 G2 K2 cc key v value V : owns h a s F G K -> at_child h a s i ch child F G K c x1 x2 s1 s2 G0 F1 G1 K1 Fc Gc Kc F2 G2 K2 ->
  nth_error (h_shards h) ch = Some cc -> s_key child = key -> hval h key v value V -> (forall z, In z V -> ~ In z G /\ ~ In z K) ->
  exists h', put_cell ch (c_set_val v cc) h = (Ok tt, h') /\ hpost h a F G K V key v value (s_val child) (c_val cc) (set_child (SShard (set_val value child)) i s) h'.
Proof.
  intros O A Hcc Ek Hv HV. destruct (child_owns _ _ _ _ _ _ _ _ _ _ _ _ _ _ _ _ _ _ _ _ _ _ _ _ O A) as (Oc & Na & Ha). destruct (owns_parts _ _ _ _ _ _ Oc) as (cc' & Fs & Gv & Gs & Hcc' & Hh & Hvc & Hr & EF & EG & Nch & NFs & NGs & DG & _). rewrite Hcc in Hcc'. injection Hcc' as <-.
  unfold put_cell. eexists. split; [reflexivity|]. set (h' := mkHeap _ _). assert (Hk : kept h h' [ch] []) by apply put_kept.
  assert (DV : forall z, In z V -> ~ In z Gc /\ ~ In z Kc). { intros z Hz. destruct (HV z Hz) as [U1 U2]. rewrite (ac_G _ _ _ _ _ _ _ _ _ _ _ _ _ _ _ _ _ _ _ _ _ _ _ _ A) in U1. rewrite (ac_K _ _ _ _ _ _ _ _ _ _ _ _ _ _ _ _ _ _ _ _ _ _ _ _ A) in U2. rewrite !in_app_iff in *. tauto. }
  exists Gv. rewrite Ek in Hvc. split; [eapply hval_frame; [exact Hvc|exact Hk|intros z _ []]|]. split.
  { apply sub_incl. rewrite (ac_G _ _ _ _ _ _ _ _ _ _ _ _ _ _ _ _ _ _ _ _ _ _ _ _ A), EG. intros z Hz. rewrite !in_app_iff. tauto. }
  split; [|eapply hval_frame; [exact Hv|exact Hk|intros z _ []]].
  assert (O' : owns h' ch (set_val value child) Fc (V ++ Gs) Kc).
  { destruct Oc as [_ OF OG OK_ OT]. constructor; [|exact OF| | |exact OT].
    - rewrite EF. eapply (hrep_intro h' ch (c_set_val v cc) (set_val value child) Fs V Gs); [cbn [h' h_shards]; eapply set_nth_same, Hcc|exact Hh| |].
      + cbn [set_val s_key s_val c_set_val c_val]. rewrite Ek. eapply hval_frame; [exact Hv|exact Hk|intros z _ []].
      + cbn [set_val s_slots c_set_val c_slots]. apply (proj2 (hrep_frame _ _ _ _ Hk)); [exact Hr|intros z Hz [<-|[]]; contradiction|intros z _ []|intros z _ []].
    - rewrite <- (app_nil_r Gs) in *. change (V ++ Gs ++ []) with ([] ++ V ++ (Gs ++ [])). rewrite app_nil_r in *. apply (nodup_mid [] [] V Gs); [exact NGs|exact (hval_nodup _ _ _ _ _ Hv)|]. intros z Hz. split; [intros []|]. intros Hi. apply (proj1 (DV z Hz)). rewrite EG. apply in_or_app. now right.
    - intros z Hz Hz'. apply in_app_iff in Hz as [Hz|Hz]; [exact (proj2 (DV z Hz) Hz')|]. apply (OK_ z); [|exact Hz']. rewrite EG. apply in_or_app. now right. }
  eapply child_put; [exact O|exact A|exact HV|exact O'|apply sub_refl| |apply sub_refl| |].
  - apply sub_incl. intros z Hz. rewrite EG, !in_app_iff in *. tauto.
  - eapply kept_weaken; [exact Hk|intros z [<-|[]]; rewrite EF; now left|intros z []].
  - intros z Hz. split; [left; rewrite EG; apply in_or_app; now left|]. assert (In z Gc) by (rewrite EG; apply in_or_app; now left). split; [|intros Hi; destruct Oc as [_ _ _ OK_ _]; eapply OK_; eassumption].
    intros Hi. apply in_app_iff in Hi as [Hi|Hi]; [exact (proj1 (DV z Hi) H)|exact (DG z Hz Hi)].
Qed.

(** A value is removed. *)
Lemma case_rm {TG : Tag} h a s i ch child F G K c x1 x2 s1 s2 G0 F1 G1 K1 Fc Gc Kc F2 G2 K2 cc key idx : owns h a s F G K -> at_child h a s i ch child F G K c x1 x2 s1 s2 G0 F1 G1 K1 Fc Gc Kc F2 G2 K2 ->
  nth_error (h_shards h) ch = Some cc -> s_key child = key -> bf_before (s_bf s) idx = Ok i ->
  sim (hpost h a F G K [] key None None) (hstep [] h a F G K [] key None None) (bind (upd_shard (rm idx)) (fun _ => ret (s_val child)) s) (bind (hrm idx a) (fun _ => ret (c_val cc)) h).
Proof.
  intros O A Hcc Ek Eb. destruct (child_owns _ _ _ _ _ _ _ _ _ _ _ _ _ _ _ _ _ _ _ _ _ _ _ _ O A) as (Oc & Na & Ha). destruct (owns_parts _ _ _ _ _ _ Oc) as (cc' & Fs & Gv & Gs & Hcc' & Hh & Hvc & Hr & EF & EG & Nch & NFs & NGs & DG & _). rewrite Hcc in Hcc'. injection Hcc' as <-.
  eapply sim_bind.
  - eapply sim_mono; [eapply (hrm_sim Gv h a s F G K idx O)|intros ? ? ? ? U; exact U|intros s' h' U; split; [exact U|reflexivity]].
    intros i' x y Fc' Gc' Kc' Eb' Ey (_ & c'' & Hc'' & Ex'') Rc'. rewrite Eb in Eb'. injection Eb' as <-. destruct A as [Hc Hh0 Hv0 Ex Es L1 L2 -> -> -> R1 Rc R2 Hi].
    rewrite Hc in Hc''. injection Hc'' as <-. rewrite Ex, nth_error_app2, L1, Nat.sub_diag in Ex'' by lia. cbn in Ex''. injection Ex'' as <-. rewrite Es, nth_error_app2, L2, Nat.sub_diag in Ey by lia. cbn in Ey. injection Ey as <-.
    inversion Rc'; subst. match goal with H : hrep h ch child _ _ _ |- _ => inversion H; subst end. match goal with H : nth_error (h_shards h) ch = Some ?c0, H' : nth_error (h_shards h) ch = Some cc |- _ => rewrite H' in H; injection H as <- end.
    match goal with H : hval h (s_key child) (c_val cc) (s_val child) ?g |- incl Gv ((?g ++ _) ++ _) => rewrite (hval_det _ _ _ _ _ _ _ _ _ Hvc H) end. intros z Hz. rewrite !in_app_iff. tauto.
  - intros u u' s' h' [M Hk]. unfold ret, sim. cbn [fst snd]. exists Gv. split; [rewrite Ek in Hvc; eapply hval_frame; [exact Hvc|exact Hk|intros z _ []]|]. split; [|split; [exact M|reflexivity]].
    apply sub_incl. rewrite (ac_G _ _ _ _ _ _ _ _ _ _ _ _ _ _ _ _ _ _ _ _ _ _ _ _ A), EG. intros z Hz. rewrite !in_app_iff. tauto.
Qed.

(** A value becomes a shard with two values. *)
Lemma case_fork hash f (IH : swap_ok hash f) {TG : Tag} w hv1 hv2 h a s i ch child F G K c x1 x2 s1 s2 G0 F1 G1 K1 Fc Gc Kc F2 G2 K2 cc key v value V z b : owns h a s F G K -> at_child h a s i ch child F G K c x1 x2 s1 s2 G0 F1 G1 K1 Fc Gc Kc F2 G2 K2 ->
  nth_error (h_shards h) ch = Some cc -> hval h key v value V -> value <> None -> (forall z, In z V -> ~ In z G /\ ~ In z K) ->
  sim (hpost h a F G K V key v value) (hstep [] h a F G K V key v value)
    (bind (lift (NewShard z)) (fun fresh =>
       match swapValue hash f w hv1 key value (SetCidBuilder b fresh) with
       | (Ok _, fresh1) => match swapValue hash f w hv2 (s_key child) (s_val child) fresh1 with
           | (Ok _, fresh2) => do _ <- upd_shard (fun s => Ok (set_child (SShard fresh2) i s)) ;; ret None
           | (Err e, _) => throw e | (Panic, _) => lift Panic | (Fuel, _) => lift Fuel end
       | (Err e, _) => throw e | (Panic, _) => lift Panic | (Fuel, _) => lift Fuel end) s)
    (bind (hNewShard z b) (fun fresh => do _ <- hswapValue hash f w hv1 key v fresh ;; do _ <- hswapValue hash f w hv2 (c_key cc) (c_val cc) fresh ;; do _ <- hset (HShard fresh) i a ;; ret None) h).
Proof.
  intros O A Hcc Hv Nv HV. destruct (child_owns _ _ _ _ _ _ _ _ _ _ _ _ _ _ _ _ _ _ _ _ _ _ _ _ O A) as (Oc & Na & Ha). destruct (owns_parts _ _ _ _ _ _ Oc) as (cc' & Fs & Gv & Gs & Hcc' & Hh & Hvc & Hr & EF & EG & Nch & NFs & NGs & DG & _). rewrite Hcc in Hcc'. injection Hcc' as <-.
  assert (DV : forall z, In z V -> ~ In z Gc /\ ~ In z Kc). { intros u Hz. destruct (HV u Hz) as [U1 U2]. rewrite (ac_G _ _ _ _ _ _ _ _ _ _ _ _ _ _ _ _ _ _ _ _ _ _ _ _ A) in U1. rewrite (ac_K _ _ _ _ _ _ _ _ _ _ _ _ _ _ _ _ _ _ _ _ _ _ _ _ A) in U2. rewrite !in_app_iff in *. tauto. }
  assert (DVv : forall z, In z Gv -> ~ In z V). { intros u Hu Hu'. apply (proj1 (DV u Hu')). rewrite EG. apply in_or_app. now left. }
  rewrite bind_lift. unfold NewShard, NewShardValue.
  assert (En : hNewShard z b h = match makeShard z [] None with Ok fr => (Ok (length (h_shards h)), mkHeap (h_links h) (h_shards h ++ [mkCell z b (s_bf fr) [] None []])) | Err e => (Err e, h) | Panic => (Panic, h) | Fuel => (Fuel, h) end).
  { unfold hNewShard. rewrite bind_lift, (hmake_eq z b [] None [] None). destruct (makeShard z [] None); reflexivity. }
  destruct (makeShard z [] None) as [fr|e| |] eqn:Em; rewrite (bind_run _ _ _ _ _ En); [|split; [reflexivity|now apply step_refl]|exact I|exact I]. clear En. apply make_shape in Em.
  set (h1 := mkHeap (h_links h) (h_shards h ++ [mkCell z b (s_bf fr) [] None []])). set (fa := length (h_shards h)).
  assert (Frep : forall T : Tag, @kept T h h1 [] [] /\ @hrep T h1 fa (SetCidBuilder b fr) [fa] [] []).
  { intros T. split; [apply new_shard_kept|]. eapply (@hrep_intro T h1 fa (mkCell z b (s_bf fr) [] None []) _ [] [] []); [apply new_at|rewrite Em; repeat split|rewrite Em; reflexivity|rewrite Em; constructor]. }
  pose proof Hh as (_ & _ & _ & Hkey). rewrite Hkey.
  pose proof (fork_run hash f IH TG w hv1 hv2 key value v V (s_key child) (s_val child) (c_val cc) Gv h h1 fa (SetCidBuilder b fr) (ow_t _ _ _ _ _ _ O) eq_refl (proj1 (Frep TG)) (proj2 (Frep TG)) Hv Hvc DVv) as R.
  (* the same run, watching the new link *)
  assert (Watch : forall h3, (forall T : Tag, (forall x, @t_la T = Some x -> (x < length (h_links h))%nat) -> @hval T h key v value V -> @hval T h (s_key child) (c_val cc) (s_val child) Gv -> @kept T h h3 [] (V ++ Gv)) -> hval h3 key v value V).
  { intros h3 HK. unfold hval in Hv |- *. destruct v as [la|], value as [l|]; try contradiction. destruct Hv as (-> & l' & El & Ez & Et & Ep & Htag). split; [reflexivity|].
    set (T := {| t_la := Some la; t_key := key |}). assert (Hk3 : @kept T h h3 [] ([la] ++ Gv)).
    { apply HK; [cbn; intros x Hx; injection Hx as <-; eapply nth_lt, El| |].
      - split; [reflexivity|]. exists l'. repeat (split; [assumption|]). reflexivity.
      - unfold hval in Hvc |- *. destruct (c_val cc) as [lb|], (s_val child); try contradiction; [|exact Hvc]. destruct Hvc as (-> & l2 & U1 & U2 & U3 & U4 & _). split; [reflexivity|]. exists l2. repeat (split; [assumption|]). cbn. intros Eq. injection Eq as <-. exfalso. apply (DVv la); now left. }
    destruct (kp_k _ _ _ _ Hk3 la l' eq_refl El Ep) as (l3 & E3 & P3). destruct (kp_t _ _ _ _ Hk3 la l' El) as (l4 & E4 & Z4 & T4). cbn [t_la t_key T] in E3, P3. rewrite E3 in E4. injection E4 as <-. exists l3. split; [exact E3|]. split; [congruence|]. split; [congruence|]. auto. }
  assert (Again := fun (T : Tag) B U1 U2 => fork_run hash f IH T w hv1 hv2 key value v V (s_key child) (s_val child) (c_val cc) Gv h h1 fa (SetCidBuilder b fr) B eq_refl (proj1 (Frep T)) (proj2 (Frep T)) U1 U2 DVv).
  assert (Fail : forall h3, kept h h3 [] (V ++ Gv) -> hval h3 (s_key child) (c_val cc) (s_val child) Gv -> hval h3 key v value V -> hstep [] h a F G K V key v value s h3).
  { intros h3 Hk Hvc3 Hv3. split; [|exact Hv3]. 
    assert (O3 : owns h3 ch child Fc Gc Kc).
    { destruct Oc as [Rc OF OG OK_ OT]. constructor; [|exact OF|exact OG|exact OK_|pose proof (kp_m _ _ _ _ Hk); intros u Hu; specialize (OT u Hu); lia]. rewrite EF, EG.
      eapply hrep_intro; [apply (kp_s _ _ _ _ Hk); [exact Hcc|intros []]|exact Hh|exact Hvc3|]. apply (proj2 (hrep_frame _ _ _ _ Hk)); [exact Hr|intros u _ []| |].
      - intros u Hu Hu'. apply in_app_iff in Hu' as [Hu'|Hu']; [apply (proj1 (DV u Hu')); rewrite EG; apply in_or_app; now right|exact (DG u Hu' Hu)].
      - intros u Hu Hu'. apply in_app_iff in Hu' as [Hu'|Hu']; [exact (proj2 (DV u Hu') Hu)|]. apply (OK_ u); [|exact Hu]. rewrite EG. apply in_or_app. now left. }
    pose proof (child_put h h3 [] V a s i ch child child F G K c x1 x2 s1 s2 G0 F1 G1 K1 Fc Gc Kc F2 G2 K2 Fc Gc Kc O A HV O3 (sub_refl _ _) (sub_incl _ _ _ (incl_appr _ (incl_refl _))) (sub_refl _ _)) as P.
    replace s with (set_child (SShard child) i s) at 1; [apply P; [|intros u []]; eapply kept_weaken; [exact Hk|intros u []|intros u Hu; rewrite EG, !in_app_iff in *; tauto]|].
    destruct A as [_ _ _ _ Es _ L2 _ _ _ _ _ _ _]. unfold set_child, set_slots. rewrite Es, <- L2, set_nth_mid, <- Es. destruct s; reflexivity. }
  destruct (swapValue hash f w hv1 key value (SetCidBuilder b fr)) as [[r1|e| |] f1].
  2:{ destruct R as (h2 & E2 & Hk & Hvc3). rewrite (bind_run _ _ _ _ _ E2). split; [reflexivity|]. cbn [snd]. apply Fail; auto. apply Watch. intros T B U1 U2. destruct (Again T B U1 U2) as (h2' & E2' & Hk' & _). rewrite E2 in E2'. injection E2' as <-. exact Hk'. }
  2:{ destruct R as (h2 & E2). rewrite (bind_run _ _ _ _ _ E2). exact I. }
  2:{ destruct R as (h2 & E2). rewrite (bind_run _ _ _ _ _ E2). exact I. }
  destruct R as (x1' & h2 & E2 & R). rewrite (bind_run _ _ _ _ _ E2). destruct (swapValue hash f w hv2 (s_key child) (s_val child) f1) as [[r2|e| |] f2].
  2:{ destruct R as (h3 & E3 & Hk & Hvc3). rewrite (bind_run _ _ _ _ _ E3). split; [reflexivity|]. cbn [snd]. apply Fail; auto. apply Watch. intros T B U1 U2. destruct (Again T B U1 U2) as (x1'' & h2' & E2' & h3' & E3' & Hk' & _). rewrite E2 in E2'. injection E2' as <- <-. rewrite E3 in E3'. injection E3' as <-. exact Hk'. }
  2:{ destruct R as (h3 & E3). rewrite (bind_run _ _ _ _ _ E3). exact I. }
  2:{ destruct R as (h3 & E3). rewrite (bind_run _ _ _ _ _ E3). exact I. }
  destruct R as (x2' & h3 & E3 & (F' & G' & K' & O3 & SF & SG & SK & Hk & Hvc3)). rewrite (bind_run _ _ _ _ _ E3).
  assert (Hv3 : hval h3 key v value V). { apply Watch. intros T B U1 U2. destruct (Again T B U1 U2) as (x1'' & h2' & E2' & x2'' & h3' & E3' & (? & ? & ? & _ & _ & _ & _ & Hk' & _)). rewrite E2 in E2'. injection E2' as <- <-. rewrite E3 in E3'. injection E3' as <- <-. exact Hk'. }
  destruct O3 as [R3 N1 N2 N3 _].
  destruct (child_set h h3 [] V a s i ch child (HShard fa) (SShard f2) F G K c x1 x2 s1 s2 G0 F1 G1 K1 Fc Gc Kc F2 G2 K2 F' G' K' O A HV) as (h4 & E4 & K4 & M4); auto.
  - rewrite <- (app_nil_r F'), <- (app_nil_r G'), <- (app_nil_r K'). constructor; [exact R3|constructor].
  - eapply sub_trans; [exact SF|apply sub_incl; intros u []|lia].
  - eapply sub_trans; [exact SG|apply sub_incl; intros u Hu; rewrite EG, !in_app_iff in *; tauto|lia].
  - eapply sub_trans; [exact SK|apply sub_incl; intros u []|lia].
  - eapply kept_weaken; [exact Hk|intros u []|intros u Hu; rewrite EG, !in_app_iff in *; tauto].
  - intros u [].
  - rewrite (bind_run _ _ _ _ _ E4). unfold bind, upd_shard, ret, sim. cbn [fst snd]. apply post_none. split; [exact M4|]. eapply hval_frame; [exact Hv3|exact K4|intros u _ []].
Qed.

(** The operation is on a child that is a shard. *)
Lemma case_rec hash f (IH : swap_ok hash f) {TG : Tag} w hv1 h a s i ch child F G K c x1 x2 s1 s2 G0 F1 G1 K1 Fc Gc Kc F2 G2 K2 key v value V idx : owns h a s F G K -> at_child h a s i ch child F G K c x1 x2 s1 s2 G0 F1 G1 K1 Fc Gc Kc F2 G2 K2 ->
  hval h key v value V -> (forall z, In z V -> ~ In z G /\ ~ In z K) ->
  sim (hpost h a F G K V key v value) (hstep [] h a F G K V key v value)
    (bind (on_child i child (swapValue hash f w hv1 key value)) (fun '(oldValue, child') =>
       match value with
       | Some _ => ret oldValue
       | None =>
           match s_slots child' with
           | [] => do _ <- upd_shard (rm idx) ;; ret oldValue
           | [SShard schild] => if isValueNode schild then do _ <- upd_shard (fun s => Ok (set_child (SShard schild) i s)) ;; ret oldValue else ret oldValue
           | [SLink slnk] => do isval <- lift (childLinkType child' slnk) ;; if isval then do _ <- upd_shard (fun s => Ok (set_child (SLink slnk) i s)) ;; ret oldValue else ret oldValue
           | _ => ret oldValue
           end
       end) s)
    (bind (hswapValue hash f w hv1 key v ch) (fun oldValue =>
       match v with
       | Some _ => ret oldValue
       | None =>
           do cc1 <- get_cell ch ;;
           match c_slots cc1 with
           | [] => do _ <- hrm idx a ;; ret oldValue
           | [HShard schild] => do sc <- get_cell schild ;; if c_isValue sc then do _ <- hset (HShard schild) i a ;; ret oldValue else ret oldValue
           | [HLink slnk] => do l <- get_link slnk ;; do isval <- lift (hchildLinkType cc1 l) ;; if isval then do _ <- hset (HLink slnk) i a ;; ret oldValue else ret oldValue
           | _ => ret oldValue
           end
       end) h).
Proof.
  intros O A Hv HV. destruct (child_owns _ _ _ _ _ _ _ _ _ _ _ _ _ _ _ _ _ _ _ _ _ _ _ _ O A) as (Oc & Na & Ha).
  assert (DV : forall z, In z V -> ~ In z Gc /\ ~ In z Kc). { intros z Hz. destruct (HV z Hz) as [U1 U2]. rewrite (ac_G _ _ _ _ _ _ _ _ _ _ _ _ _ _ _ _ _ _ _ _ _ _ _ _ A) in U1. rewrite (ac_K _ _ _ _ _ _ _ _ _ _ _ _ _ _ _ _ _ _ _ _ _ _ _ _ A) in U2. rewrite !in_app_iff in *. tauto. }
  pose proof (sim_cases _ _ _ _ (IH TG w hv1 key value v V h ch child Fc Gc Kc Oc Hv DV)) as S1.
  assert (Up : forall X c' h2, sub (length (h_links h)) X Gc -> hstep X h ch Fc Gc Kc V key v value c' h2 -> hstep X h a F G K V key v value (set_child (SShard c') i s) h2).
  { intros X c' h2 SX ((F' & G' & K' & O' & SF & SG & SK & Hk & HX) & Hv2). split; [|exact Hv2]. eapply child_put; [exact O|exact A|exact HV|exact O'|exact SF|exact SG|exact SK|exact Hk|]. intros z Hz. split; [exact (SX z Hz)|now apply HX]. }
  pose proof (eq_refl (on_child i child (swapValue hash f w hv1 key value) s)) as El. unfold on_child in El at 2. destruct (swapValue hash f w hv1 key value child) as [[r|e| |] c'].
  2:{ destruct S1 as (h2 & E2 & P). rewrite (bind_run _ _ _ _ _ E2). rewrite (bind_run _ _ _ _ _ El). split; [reflexivity|]. cbn [snd]. apply Up; [intros z []|exact P]. }
  2:{ destruct S1 as (h2 & E2). rewrite (bind_run _ _ _ _ _ E2). rewrite (bind_run _ _ _ _ _ El). exact I. }
  2:{ destruct S1 as (h2 & E2). rewrite (bind_run _ _ _ _ _ E2). rewrite (bind_run _ _ _ _ _ El). exact I. }
  destruct S1 as (x & h2 & E2 & (X & Hx & SX & P)). rewrite (bind_run _ _ _ _ _ E2). rewrite (bind_run _ _ _ _ _ El). clear E2 El. cbv beta iota.
  assert (SXG : sub (length (h_links h)) X G). { intros z Hz. destruct (SX z Hz) as [U|U]; [left; rewrite (ac_G _ _ _ _ _ _ _ _ _ _ _ _ _ _ _ _ _ _ _ _ _ _ _ _ A), !in_app_iff; tauto|now right]. }
  assert (PX : hpost h a F G K V key v value r x (set_child (SShard c') i s) h2) by (exists X; split; [exact Hx|split; [exact SXG|now apply Up]]).
  destruct value as [l|], v as [la|]; try contradiction Hv; [exact PX|].
  cbn in Hv. subst V. destruct (Up X c' h2 SX P) as ((F' & G' & K' & O2 & SF & SG & SK & Hk & HX) & _). cbn [app] in *.
  set (s2' := set_child (SShard c') i s) in *.
  assert (En : nth_error (s_slots s2') (Z.to_nat i) = Some (SShard c')). { destruct A as [_ _ _ _ Es _ L2 _ _ _ _ _ _ _]. unfold s2', set_child. cbn [set_slots s_slots]. rewrite Es. eapply set_nth_same. rewrite nth_error_app2, L2, Nat.sub_diag by lia. reflexivity. }
  assert (Sl : slot_at h2 a i (HShard ch)).
  { destruct P as ((_ & _ & _ & _ & _ & _ & _ & Hkc & _) & _). destruct A as [Hc _ _ Ex _ L1 _ _ _ _ _ _ _ Hi]. split; [exact Hi|]. exists c. split; [apply (kp_s _ _ _ _ Hkc); assumption|]. rewrite Ex, nth_error_app2, L1, Nat.sub_diag by lia. reflexivity. }
  destruct (at_child_of h2 a s2' F' G' K' i c' ch O2 En Sl) as (c2 & y1 & y2 & t1 & t2 & G02 & F12 & G12 & K12 & Fd & Gd & Kd & F22 & G22 & K22 & A2).
  destruct (child_owns _ _ _ _ _ _ _ _ _ _ _ _ _ _ _ _ _ _ _ _ _ _ _ _ O2 A2) as (Od & _ & _). destruct (owns_parts _ _ _ _ _ _ Od) as (cc1 & Fs & Gv & Gs & Hcc & Hh & Hvd & Hr & EF & EG & Nch & NFs & NGs & DG & _).
  rewrite (get_cell_ok h2 ch cc1 _ Hcc).
  assert (Set_ : forall x' y' Fc' Gc' Kc', hreps h2 [x'] [y'] Fc' Gc' Kc' -> incl Fc' Fd -> incl Gc' Gd -> incl Kc' Kd -> NoDup Fc' -> NoDup Gc' ->
    sim (hpost h a F G K [] key None None) (hstep [] h a F G K [] key None None) (bind (upd_shard (fun s => Ok (set_child y' i s))) (fun _ => ret r) s2') (bind (hset x' i a) (fun _ => ret x) h2)).
  { intros x' y' Fc' Gc' Kc' Rx I1 I2 I3 N1 N2. destruct (child_set h2 h2 [] [] a s2' i ch c' x' y' F' G' K' c2 y1 y2 t1 t2 G02 F12 G12 K12 Fd Gd Kd F22 G22 K22 Fc' Gc' Kc' O2 A2 ltac:(intros z []) Rx N1 N2) as (h3 & E3 & K3 & M3).
    - intros z Hg Hkk. destruct Od as [_ _ _ OK_ _]. apply (OK_ z); auto.
    - apply sub_incl, I1.
    - apply sub_incl. exact I2.
    - apply sub_incl, I3.
    - apply kept_refl.
    - intros z [].
    - rewrite (bind_run _ _ _ _ _ E3). unfold bind, upd_shard, ret, sim. cbn [fst snd]. eapply post_then; [exact Hx|exact SXG|exact Hk|exact SF|exact SG|exact SK|exact HX|exact O2|exact M3]. }
  inversion Hr as [E1 E2|sl l xs ss F0 G0' K0 Hl Hrest E1 E2 E3 E4 E5|sa sc xs ss F0 G0' K0 F3 G3 K3 Hsc Hrest E1 E2].
  - eapply sim_bind.
    + eapply sim_mono; [apply (hrm_sim [] h2 a s2' F' G' K' idx O2); intros; intros z []|intros ? ? ? ? U; exact U|].
      intros s3 h3 M. cbn beta in M. eapply post_then in M; [|exact Hx|exact SXG|exact Hk|exact SF|exact SG|exact SK|exact HX|exact O2]. destruct M as (X' & _ & _ & ((F5 & G5 & K5 & U1 & U2 & U3 & U4 & U5 & _) & U6)). split; [|exact U6]. exists F5, G5, K5. repeat (split; [assumption|]). intros z [].
    + intros u u' s3 h3 [M _]. unfold ret, sim. cbn [fst snd]. eapply post_then; [exact Hx|exact SXG|exact Hk|exact SF|exact SG|exact SK|exact HX|exact O2|exact M].
  - destruct Hrest as [|? ? ? ? ? ? ?|? ? ? ? ? ? ? ? ? ?]; try exact PX. rewrite (get_link_ok h2 sl l _ Hl), (head_type cc1 c' l Hh). rewrite !bind_lift. destruct (childLinkType c' l) as [[|]|e| |]; [|exact PX| |exact I|exact I].
    + apply (Set_ (HLink sl) (SLink l) [] [] [sl]); [constructor; [exact Hl|constructor]|intros z []|intros z []| |constructor|constructor]. rewrite <- E5. apply incl_refl.
    + split; [reflexivity|]. cbn [snd]. destruct PX as (X' & _ & _ & ((F5 & G5 & K5 & U1 & U2 & U3 & U4 & U5 & _) & U6)). split; [|exact U6]. exists F5, G5, K5. repeat (split; [assumption|]). intros z [].
  - destruct Hrest as [|? ? ? ? ? ? ?|? ? ? ? ? ? ? ? ? ?]; try exact PX. pose proof Hsc as Hsc'. inversion Hsc' as [? csc ? Fq Gq0 Gq ? Hcsc ? ? ? ]; subst. rewrite (get_cell_ok h2 sa csc _ Hcsc). rewrite (value_eq h2 sa csc sc _ _ _ Hsc Hcsc). destruct (isValueNode sc); [|exact PX].
    eapply (Set_ (HShard sa) (SShard sc)); [constructor; [exact Hsc|constructor]|intros z Hz; now right|apply incl_appr, incl_refl|apply incl_refl|exact NFs|exact NGs].
Qed.

Theorem swap_all hash fuel : swap_ok hash fuel.
Proof.
  induction fuel as [|f IH]; intros TG w hv key value v V h a s F G K O Hv HV; [exact I|].
  destruct (owns_parts _ _ _ _ _ _ O) as (c & Fs & G0 & Gs & Hc & Hh & _). cbn [swapValue hswapValue]. rewrite bind_get, (get_cell_ok h a c _ Hc), (head_lg c s Hh). pose proof Hh as (Hz & Hb & Hf & _). rewrite Hf, Hz, Hb.
  pose proof (step_refl h a s F G K V key v value O Hv HV) as Same.
  rewrite !bind_lift. destruct (Next hv (tableSizeLg2 s)) as [[idx hv1]|e| |]; [|split; [reflexivity|exact Same]|exact I|exact I]. cbv beta iota. unfold has. rewrite !bind_lift. destruct (bf_bit (s_bf s) idx) as [b|e| |]; [|split; [reflexivity|exact Same]|exact I|exact I].
  destruct b; cbn [negb].
  2:{ eapply sim_bind; [exact (hinsert_sim h a s F G K key v value V idx O Hv HV)|]. intros u u' s' h' P. unfold ret, sim. cbn [fst snd]. now apply post_none. }
  unfold sliceIndex. rewrite !bind_lift. destruct (bf_before (s_bf s) idx) as [i|e| |] eqn:Eb; [|split; [reflexivity|exact Same]|exact I|exact I].
  pose proof (hval_bound _ _ _ _ _ Hv) as BV. pose proof (sim_cases _ _ _ _ (hget_sim w h a s F G K i O)) as Sg.
  assert (Ebf : forall ch s', get_child w i s = (Ok ch, s') -> s_bf s' = s_bf s).
  { intros ch s' E. unfold get_child in E. destruct (check s i); try discriminate. destruct (nth_error (s_slots s) (Z.to_nat i)) as [[l|c0]|]; try discriminate; [|congruence]. destruct (loadChild w s l); try discriminate. injection E as <- <-. reflexivity. }
  destruct (get_child w i s) as [[child|e| |] s'] eqn:Eg.
  2:{ destruct Sg as (h1 & E1 & (F1 & G1 & K1 & O1 & SF & SG & SK & Hk & _)). rewrite (bind_run _ _ _ _ _ E1), (bind_run _ _ _ _ _ Eg). split; [reflexivity|]. cbn [snd]. eapply step_lift; [exact BV|exact Hk|exact SF|exact SG|exact SK|exact O1|]. apply step_refl; [exact O1| |eapply disj_sub; eauto]. eapply hval_frame; [exact Hv|exact Hk|]. intros z Hu. now apply HV. }
  2:{ destruct Sg as (h1 & E1). rewrite (bind_run _ _ _ _ _ E1), (bind_run _ _ _ _ _ Eg). exact I. }
  2:{ destruct Sg as (h1 & E1). rewrite (bind_run _ _ _ _ _ E1), (bind_run _ _ _ _ _ Eg). exact I. }
  destruct Sg as (ch & h1 & E1 & (F1 & G1 & K1 & O1 & SF & SG & SK & Hk & _) & En & Sl). rewrite (bind_run _ _ _ _ _ E1), (bind_run _ _ _ _ _ Eg). clear E1. specialize (Ebf _ _ eq_refl). clear Eg.
  assert (Hv1 : hval h1 key v value V) by (eapply hval_frame; [exact Hv|exact Hk|intros z Hu; now apply HV]).
  assert (HV1 : forall z, In z V -> ~ In z G1 /\ ~ In z K1) by (eapply disj_sub; eauto).
  eapply sim_mono; [|intros r x s2 h2 P; eapply post_lift; [exact BV|exact Hk|exact SF|exact SG|exact SK|exact O1|exact P]|intros s2 h2 P; eapply step_lift; [exact BV|exact Hk|exact SF|exact SG|exact SK|exact O1|exact P]].
  clear Same. destruct (at_child_of h1 a s' F1 G1 K1 i child ch O1 En Sl) as (c1 & x1 & x2 & s1 & s2 & G01 & F11 & G11 & K11 & Fc & Gc & Kc & F12 & G12 & K12 & A).
  destruct (child_owns _ _ _ _ _ _ _ _ _ _ _ _ _ _ _ _ _ _ _ _ _ _ _ _ O1 A) as (Oc & _ & _). destruct (owns_parts _ _ _ _ _ _ Oc) as (cc & _ & _ & _ & Hcc & Hhc & _ & _ & _ & _ & _ & _ & _ & _ & Eval). rewrite (get_cell_ok h1 ch cc _ Hcc), Eval. pose proof Hhc as (_ & _ & _ & Hkey). rewrite Hkey.
  destruct (isValueNode child).
  - destruct (bytes_eqb (s_key child) key) eqn:Eq.
    + apply bytes_eqb_eq in Eq. destruct v as [la|], value as [l|]; try contradiction Hv.
      * destruct (case_set h1 a s' i ch child F1 G1 K1 c1 x1 x2 s1 s2 G01 F11 G11 K11 Fc Gc Kc F12 G12 K12 cc key (Some la) (Some l) V O1 A Hcc Eq Hv1 HV1) as (h2 & E2 & P). rewrite (bind_run _ _ _ _ _ E2). exact P.
      * cbn in Hv. subst V. rewrite <- Ebf in Eb. exact (case_rm h1 a s' i ch child F1 G1 K1 c1 x1 x2 s1 s2 G01 F11 G11 K11 Fc Gc Kc F12 G12 K12 cc key idx O1 A Hcc Eq Eb).
    + destruct v as [la|], value as [l|]; try contradiction Hv.
      * pose proof (case_fork hash f IH w hv1 (newConsumedHashBits hash (s_key child) (hb_consumed hv1)) h1 a s' i ch child F1 G1 K1 c1 x1 x2 s1 s2 G01 F11 G11 K11 Fc Gc Kc F12 G12 K12 cc key (Some la) (Some l) V (s_size s) (s_builder s) O1 A Hcc Hv1 ltac:(discriminate) HV1) as Q. rewrite Hkey in Q. exact Q.
      * split; [reflexivity|]. now apply step_refl.
  - exact (case_rec hash f IH w hv1 h1 a s' i ch child F1 G1 K1 c1 x1 x2 s1 s2 G01 F11 G11 K11 Fc Gc Kc F12 G12 K12 key v value V idx O1 A Hv1 HV1).
Qed.
