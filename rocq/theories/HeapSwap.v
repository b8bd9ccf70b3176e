(** swapValue on objects. *)
From Verif Require Import Base Pb FSNode Dag Builder HashBits Bitfield Hamt HeapHamt HeapRep HeapOps HeapGet.

Section Swap.
Context {TG : Tag}.
(** The invariant of a call that may take over the links [V] (the new value). *)
Definition hstep X h a F G K V key v (value : option link) (s' : shard) (h' : heap) : Prop := moved X h h' a s' F (V ++ G) K /\ hval h' key v value V.

Lemma apart (V G K : list laddr) : (forall z, In z V -> ~ In z G /\ ~ In z K) -> forall z, In z V -> ~ In z G.
Proof. intros H z Hz. now apply H. Qed.

Lemma hinsert_sim h a s F G K key v value V idx : owns h a s F G K -> hval h key v value V -> (forall z, In z V -> ~ In z G /\ ~ In z K) ->
  sim (fun _ _ => hstep [] h a F G K V key v value) (hstep [] h a F G K V key v value) (upd_shard (insert key value idx) s) (hinsert key v idx a h).
Proof.
  intros O Hv HV. unfold upd_shard, insert, hinsert. unfold hval in Hv. destruct v as [la|], value as [l|]; try contradiction.
  2:{ subst V. cbn. split; [reflexivity|]. split; [apply owns_moved, O|reflexivity]. }
  destruct Hv as (-> & l' & El & Ez & Et & (p & En) & Hta). destruct (owns_cell _ _ _ _ _ _ O) as (c & F' & G0 & G' & Hc & Hh & Hvv & Hr & EF & EG). rewrite (get_cell_ok h a c _ Hc).
  rewrite (head_prefix c s idx Hh). destruct (rename_ok h la l' (linkNamePrefix s idx ++ key) El ltac:(intros E; rewrite <- (Hta E); eauto)) as (h1 & E1 & Es1 & El1 & K1). unfold bind at 1. rewrite E1. clear E1.
  assert (Hv1 : forall h2, kept h1 h2 [a] [] -> hval h2 key (Some la) (Some l) [la]).
  { intros h2 Hk. split; [reflexivity|]. exists (mkLink (linkNamePrefix s idx ++ key) (lsize l') (lto l')). split; [apply (kp_l _ _ _ _ Hk); [exact El1|intros []]|]. cbn [lsize lto lname]. eauto. }
  assert (M1 : moved [] h h1 a s F ([la] ++ G) K) by (apply moved_alloc; assumption).
  destruct Hh as (H1 & H2 & H3 & H4). rewrite H3. unfold sliceIndex. rewrite bind_lift. destruct (bf_before (s_bf s) idx) as [i|e| |]; cbn [rbind]; [|split; [reflexivity|split; [exact M1|apply Hv1, kept_refl]]|exact I|exact I].
  unfold NewShardValue. rewrite bind_lift, (hmake_eq 256 None key (Some la) key (Some (mkLink (linkNamePrefix s idx ++ key) (lsize l) (lto l)))).
  destruct (makeShard 256 key _) as [sd|e| |] eqn:Em; cbn [rbind]; [|split; [reflexivity|split; [exact M1|apply Hv1, kept_refl]]|exact I|exact I]. apply make_shape in Em.
  set (cv := mkCell 256 None (s_bf sd) key (Some la) []). unfold bind at 1, new_shard. set (h2 := mkHeap (h_links h1) (h_shards h1 ++ [cv])). assert (K2 : kept h1 h2 [] []) by apply new_shard_kept.
  assert (Eln : zlen (c_slots c) = zlen (s_slots s)) by (unfold zlen; now rewrite (hreps_len _ _ _ _ _ _ Hr)). rewrite Eln. destruct (zlen (s_slots s) <? i) eqn:Ei; [exact I|]. rewrite bind_lift.
  destruct (bf_set (s_bf s) idx) as [bf|e| |]; cbn [rbind]; [| |exact I|exact I].
  2:{ split; [reflexivity|]. split; [|apply Hv1; eapply kept_weaken; [exact K2|intros z []|intros z []]]. apply moved_alloc; [exact O| |exact HV]. eapply kept_trans; [exact K1|exact K2|intros z []|intros z []]. }
  unfold put_cell. cbn [sim fst snd]. set (c3 := c_set_slots bf _ c). set (h3 := mkHeap _ _). assert (K3 : kept h2 h3 [a] []) by apply put_kept.
  assert (Ha : nth_error (h_shards h2) a = Some c) by (apply (kp_s _ _ _ _ K2); [rewrite Es1; exact Hc|intros []]).
  assert (Hk : kept h h3 [a] ([la] ++ [])).
  { eapply kept_trans; [eapply kept_weaken; [exact K1|intros z []|apply incl_refl]|eapply kept_trans; [eapply kept_weaken; [exact K2|intros z []|apply incl_refl]|exact K3|apply sub_refl|intros z []]|apply sub_refl|intros z []]. }
  split; [|apply Hv1; eapply kept_trans; [eapply kept_weaken; [exact K2|intros z []|intros z []]|exact K3|apply sub_refl|intros z []]].
  destruct (hreps_split h (Z.to_nat i) _ _ _ _ _ Hr) as (F1 & G1 & KK1 & F2 & G2 & KK2 & -> & -> & -> & R1 & R2). subst F G.
  apply (refocus_gen h h3 [] [la] a s _ c c3 [HShard (length (h_shards h1))] (firstn (Z.to_nat i) (c_slots c)) (skipn (Z.to_nat i) (c_slots c)) (firstn (Z.to_nat i) (s_slots s)) (skipn (Z.to_nat i) (s_slots s)) [SShard sd] G0 F1 G1 KK1 [] [] [] F2 G2 KK2 [length (h_shards h1)] [la] []); auto.
  - repeat split; assumption.
  - cbn [h3 h_shards]. eapply set_nth_same, Ha.
  - change [length (h_shards h1)] with ([length (h_shards h1)] ++ []). change [la] with ([la] ++ []). change (@nil laddr) with (@nil laddr ++ []) at 3. constructor; [|constructor]. change [la] with ([la] ++ []).
    assert (Hn : nth_error (h_shards h3) (length (h_shards h1)) = Some cv). { apply (kp_s _ _ _ _ K3); [apply new_at|]. intros [E|[]]. apply nth_lt in Hc. rewrite Es1 in E. lia. }
    eapply (hrep_intro _ _ cv sd [] [la] []); [exact Hn|rewrite Em; repeat split|rewrite Em; cbn [s_key s_val c_val cv]|rewrite Em; constructor].
    apply Hv1. eapply kept_trans; [eapply kept_weaken; [exact K2|intros z []|intros z []]|exact K3|apply sub_refl|intros z []].
  - intros z [<-|[]]. right. rewrite Es1. lia.
  - intros z [<-|[]]. left. now left.
  - apply sub_refl.
  - repeat constructor; intros [].
  - repeat constructor; intros [].
Qed.

(** ** Removing a child *)
Lemma hrm_sim X h a s F G K idx : owns h a s F G K ->
  (forall i x y Fc Gc Kc, bf_before (s_bf s) idx = Ok i -> nth_error (s_slots s) (Z.to_nat i) = Some y -> slot_at h a i x -> hreps h [x] [y] Fc Gc Kc -> incl X Gc) ->
  sim (fun _ _ s' h' => moved X h h' a s' F G K /\ kept h h' [a] []) (fun s' h' => moved [] h h' a s' F G K) (upd_shard (rm idx) s) (hrm idx a h).
Proof.
  intros O HX. destruct (owns_cell _ _ _ _ _ _ O) as (c & F' & G0 & G' & Hc & Hh & Hv & Hr & EF & EG). unfold hrm. rewrite (get_cell_ok h a c _ Hc). unfold upd_shard, rm, sliceIndex.
  pose proof Hh as (H1 & H2 & H3 & H4). rewrite H3. rewrite bind_lift. destruct (bf_before (s_bf s) idx) as [i|e| |] eqn:Eb; cbn [rbind]; [|split; [reflexivity|now apply owns_moved]|exact I|exact I].
  assert (Ec : c_check c i = check s i) by (unfold c_check, check, zlen; now rewrite (hreps_len _ _ _ _ _ _ Hr)). rewrite Ec, bind_lift. destruct (check s i) as [[]|e| |] eqn:Ek; cbn [rbind]; [|split; [reflexivity|now apply owns_moved]|exact I|exact I].
  assert (Hi : 0 <= i < zlen (s_slots s)) by (unfold check in Ek; destruct ((zlen (s_slots s) <=? i) || (i <? 0)) eqn:E; [discriminate|]; apply orb_false_iff in E; lia).
  rewrite bind_lift. destruct (bf_unset (s_bf s) idx) as [bf|e| |]; cbn [rbind]; [|split; [reflexivity|now apply owns_moved]|exact I|exact I].
  destruct (nth_error (s_slots s) (Z.to_nat i)) as [y|] eqn:En.
  2:{ apply nth_error_None in En. unfold zlen in Hi. lia. }
  destruct (focus _ _ _ _ _ _ _ _ O En) as (c' & x & x1 & x2 & s1 & s2 & G0' & F1 & G1 & K1 & Fc & Gc & Kc & F2 & G2 & K2 & Hc' & Hh' & Hv' & Ex & Es & L1 & L2 & -> & -> & -> & R1 & Rc & R2). rewrite Hc in Hc'. injection Hc' as <-.
  assert (Enx : nth_error (c_slots c) (Z.to_nat i) = Some x) by (rewrite Ex, nth_error_app2, <- L1, Nat.sub_diag by lia; reflexivity).
  assert (HX' : incl X Gc) by (refine (HX i x y Fc Gc Kc eq_refl En _ Rc); split; [lia|]; exists c; split; [exact Hc|exact Enx]).
  unfold put_cell. cbn [sim fst snd]. set (c3 := c_set_slots bf _ c). set (h3 := mkHeap _ _). assert (K3 : kept h h3 [a] []) by apply put_kept.
  assert (T1 : forall {A} (z1 z2 : list A) z, length z1 = Z.to_nat i -> ztake i (z1 ++ z :: z2) ++ zdrop (i + 1) (z1 ++ z :: z2) = z1 ++ [] ++ z2).
  { intros A z1 z2 z L. unfold ztake, zdrop. rewrite <- L at 1. rewrite firstn_app, firstn_all, Nat.sub_diag. cbn [firstn app]. rewrite app_nil_r. replace (Z.to_nat (i + 1)) with (length z1 + 1)%nat by lia. rewrite skipn_app, (skipn_all2 z1) by lia. replace (length z1 + 1 - length z1)%nat with 1%nat by lia. reflexivity. }
  split; [|exact K3]. apply (refocus_gen h h3 X [] a s _ c c3 [] x1 x2 s1 s2 [] G0' F1 G1 K1 Fc Gc Kc F2 G2 K2 [] [] []); auto.
  - repeat split; assumption.
  - cbn [c3 c_set_slots c_slots]. rewrite Ex. now apply T1.
  - cbn [set_slots s_slots]. rewrite Es. now apply T1.
  - eapply kept_weaken; [exact K3|intros z [<-|[]]; now left|intros z []].
  - cbn [h3 h_shards]. eapply set_nth_same, Hc.
  - constructor.
  - intros z [].
  - intros z [].
  - intros z [].
  - constructor.
  - constructor.
Qed.

(** ** Composition *)
Definition hpost h a F G K V key v value (r : option link) (x : option laddr) (s' : shard) (h' : heap) : Prop :=
  exists X, hval h' key x r X /\ sub (length (h_links h)) X G /\ hstep X h a F G K V key v value s' h'.

Lemma hval_bound h key v value V : hval h key v value V -> forall z, In z V -> (z < length (h_links h))%nat.
Proof. unfold hval. destruct v, value; try contradiction; [|intros -> z []]. intros (-> & l' & E & _) z [<-|[]]. eapply nth_lt, E. Qed.
Lemma disj_sub h (V G K G1 K1 : list laddr) : (forall z, In z V -> (z < length (h_links h))%nat) -> (forall z, In z V -> ~ In z G /\ ~ In z K) -> sub (length (h_links h)) G1 G -> sub (length (h_links h)) K1 K -> forall z, In z V -> ~ In z G1 /\ ~ In z K1.
Proof.
  intros B D SG SK z Hz. pose proof (B z Hz). destruct (D z Hz). split; intros Hi; [destruct (SG z Hi)|destruct (SK z Hi)]; try contradiction; lia.
Qed.
(** Continuing after a call that took nothing over. *)
Lemma step_lift h h1 a s1 F G K F1 G1 K1 V key v value X s' h' : (forall z, In z V -> (z < length (h_links h))%nat) -> kept h h1 F G -> sub (length (h_shards h)) F1 F -> sub (length (h_links h)) G1 G -> sub (length (h_links h)) K1 K ->
  owns h1 a s1 F1 G1 K1 -> hstep X h1 a F1 G1 K1 V key v value s' h' -> hstep X h a F G K V key v value s' h'.
Proof.
  intros B Hk SF SG SK O [M Hv]. split; [|exact Hv]. destruct M as (F' & G' & K' & O' & SF' & SG' & SK' & Hk' & HX). pose proof (kp_n _ _ _ _ Hk). pose proof (kp_m _ _ _ _ Hk).
  assert (SGV : sub (length (h_links h)) (V ++ G1) (V ++ G)). { intros z Hz. apply in_app_iff in Hz as [Hz|Hz]; [left; apply in_or_app; now left|]. destruct (SG z Hz); [left; apply in_or_app; now right|now right]. }
  exists F', G', K'. split; [exact O'|]. split; [eapply sub_trans; eauto|]. split; [eapply sub_trans; eauto|]. split; [eapply sub_trans; eauto|]. split; [|exact HX].
  eapply kept_trans; [eapply kept_weaken; [exact Hk|apply incl_refl|apply incl_appr, incl_refl]|exact Hk'|exact SF|exact SGV].
Qed.
Lemma post_lift h h1 a s1 F G K F1 G1 K1 V key v value r x s' h' : (forall z, In z V -> (z < length (h_links h))%nat) -> kept h h1 F G -> sub (length (h_shards h)) F1 F -> sub (length (h_links h)) G1 G -> sub (length (h_links h)) K1 K ->
  owns h1 a s1 F1 G1 K1 -> hpost h1 a F1 G1 K1 V key v value r x s' h' -> hpost h a F G K V key v value r x s' h'.
Proof.
  intros B Hk SF SG SK O (X & Hv & SX & Hs). exists X. split; [exact Hv|]. split; [eapply sub_trans; [exact SX|exact SG|apply (kp_m _ _ _ _ Hk)]|]. eapply step_lift; eauto.
Qed.
(** Continuing after a call that already has a result. *)
Lemma post_then h h1 h2 a s1 s2 F G K F1 G1 K1 key r x X : hval h1 key x r X -> sub (length (h_links h)) X G -> kept h h1 F G -> sub (length (h_shards h)) F1 F -> sub (length (h_links h)) G1 G -> sub (length (h_links h)) K1 K -> (forall z, In z X -> ~ In z G1 /\ ~ In z K1) ->
  owns h1 a s1 F1 G1 K1 -> moved [] h1 h2 a s2 F1 G1 K1 -> hpost h a F G K [] key None None r x s2 h2.
Proof.
  intros Hv SX Hk SF SG SK HX O (F' & G' & K' & O' & SF' & SG' & SK' & Hk' & _). pose proof (kp_n _ _ _ _ Hk). pose proof (kp_m _ _ _ _ Hk). exists X. split; [|split; [exact SX|split; [|reflexivity]]].
  - eapply hval_frame; [exact Hv|exact Hk'|]. intros z Hz. now apply HX.
  - exists F', G', K'. split; [exact O'|]. split; [eapply sub_trans; eauto|]. split; [eapply sub_trans; eauto|]. split; [eapply sub_trans; eauto|]. split; [eapply kept_trans; eauto|].
    eapply disj_sub; [exact (hval_bound _ _ _ _ _ Hv)|exact HX|exact SG'|exact SK'].
Qed.
Lemma value_eq h a c s F G K : hrep h a s F G K -> nth_error (h_shards h) a = Some c -> c_isValue c = isValueNode s.
Proof.
  intros H Hc. inversion H; subst. rewrite Hc in H0. injection H0 as <-. unfold c_isValue, isValueNode. destruct H1 as (_ & _ & _ & ->). unfold hval in H2. destruct (c_val c), (s_val s); try contradiction; reflexivity.
Qed.
End Swap.
