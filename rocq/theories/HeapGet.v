(** Loading, inserting and removing children. *)
From Verif Require Import Base Pb FSNode Dag Builder HashBits Bitfield Hamt HeapHamt HeapRep HeapOps.

Lemma hmake_eq z b k v k' v' : hmakeShard z b k v = match makeShard z k' v' with Ok s => Ok (mkCell z b (s_bf s) k v []) | Err e => Err e | Panic => Panic | Fuel => Fuel end.
Proof. unfold hmakeShard, makeShard. destruct (Logtwo z); try reflexivity. cbn [rbind]. destruct (newChilder z); reflexivity. Qed.
Lemma make_shape z k v s : makeShard z k v = Ok s -> s = mkShard z None (s_bf s) k v [].
Proof. unfold makeShard. destruct (Logtwo z); try discriminate. cbn [rbind]. destruct (newChilder z); try discriminate. cbn [rbind]. intros H. injection H as <-. reflexivity. Qed.
Lemma head_pad c s : chead c s -> c_pad c = maxpadlen s.
Proof. intros (E & _). unfold c_pad, maxpadlen. now rewrite E. Qed.
Lemma head_lg c s : chead c s -> c_lg2 c = tableSizeLg2 s.
Proof. intros (E & _). unfold c_lg2, tableSizeLg2. now rewrite E. Qed.
Lemma head_type c s l : chead c s -> hchildLinkType c l = childLinkType s l.
Proof. intros H. unfold hchildLinkType, childLinkType. now rewrite (head_pad c s H). Qed.
Lemma head_prefix c s i : chead c s -> c_prefix c i = linkNamePrefix s i.
Proof. intros H. unfold c_prefix, linkNamePrefix. now rewrite (head_pad c s H). Qed.

Section Get.
Context {TG : Tag}.
(** A new shard object. *)
Definition fresh_rep (h h' : heap) (x : saddr) (ch : shard) (Fc : list saddr) (Gc Kc : list laddr) : Prop :=
  kept h h' [] [] /\ hrep h' x ch Fc Gc Kc /\ NoDup Fc /\ NoDup Gc /\ (forall z, In z Gc -> In z Kc -> False) /\
  (forall z, In z Fc -> (length (h_shards h) <= z)%nat) /\ (forall z, In z Gc -> (length (h_links h) <= z)%nat) /\ (forall z, In z Kc -> (length (h_links h) <= z)%nat).

Lemma from_dag_sim h p d las ls : hreps h (map HLink las) (map SLink ls) [] [] las ->
  match NewHamtFromDag (NProto p d ls) with
  | Ok ch => exists x h', hNewHamtFromDag p d las h = (Ok x, h') /\ kept h h' [] [] /\ hrep h' x ch [x] [] las /\ x = length (h_shards h)
  | Err e => hNewHamtFromDag p d las h = (Err e, h)
  | Panic => fst (hNewHamtFromDag p d las h) = Panic
  | Fuel => fst (hNewHamtFromDag p d las h) = Fuel
  end.
Proof.
  intros Hr. unfold NewHamtFromDag, hNewHamtFromDag. unfold bind, lift, throw. destruct (FSNodeFromBytes d) as [fsn|e| |]; cbn [rbind]; try reflexivity.
  destruct (negb (getType fsn =? THAMTShard)); [reflexivity|]. destruct (negb (getHashType fsn =? HashMurmur3)); [reflexivity|].
  rewrite (hmake_eq _ _ _ _ [] None). destruct (makeShard _ [] None) as [s|e| |] eqn:E; cbn [rbind]; try reflexivity. apply make_shape in E. cbn [c_bf]. destruct (bf_setbytes (s_bf s) (getData fsn)) as [bf|e| |]; cbn [rbind]; try reflexivity.
  eexists _, _. split; [reflexivity|]. pose proof (new_shard_kept h (mkCell (c_size (mkCell (i64 (getFanout fsn)) (Some p) (s_bf s) [] None [])) (Some p) bf [] None (map HLink las))) as Hk. split; [exact Hk|]. split; [|reflexivity].
  cbn [c_size] in *. rewrite E. cbn [s_size]. eapply (hrep_intro _ _ _ _ [] []); cbn [h_shards]; [apply new_at|repeat split|reflexivity|]. cbn [c_slots s_slots]. apply (proj2 (hrep_frame _ _ _ _ Hk)); [exact Hr|intros x []|intros x []|intros x _ []].
Qed.

Lemma hload_sim w h c s la l : (forall x, t_la = Some x -> (x < length (h_links h))%nat) -> chead c s -> nth_error (h_links h) la = Some l ->
  match loadChild w s l with
  | Ok ch => exists x h' Fc Gc Kc, hloadChild w c la h = (Ok x, h') /\ fresh_rep h h' x ch Fc Gc Kc
  | Err e => exists h', hloadChild w c la h = (Err e, h') /\ kept h h' [] []
  | Panic => fst (hloadChild w c la h) = Panic
  | Fuel => fst (hloadChild w c la h) = Fuel
  end.
Proof.
  intros Ht Hh Hl. unfold loadChild, hloadChild. rewrite (get_link_ok h la l _ Hl). rewrite (head_type c s l Hh). rewrite bind_lift. destruct (childLinkType s l) as [isval|e| |]; cbn [rbind]; try reflexivity; [|eexists; split; [reflexivity|apply kept_refl]].
  destruct isval.
  - unfold makeShardValue, hmakeShardValue. rewrite (get_link_ok h la l _ Hl). rewrite (hmake_eq _ _ _ _ [] None). destruct Hh as (Es & Hh'). rewrite Es. rewrite bind_lift. destruct (makeShard (s_size s) [] None) as [v|e| |] eqn:E; cbn [rbind]; try reflexivity; [|eexists; split; [reflexivity|apply kept_refl]].
    apply make_shape in E. rewrite (head_pad c s (conj Es Hh')). destruct (_ <? _)%nat; [reflexivity|]. set (h1 := mkHeap (h_links h ++ [l]) (h_shards h)).
    set (c2 := mkCell (s_size s) None (s_bf v) (skipn (maxpadlen s) (lname l)) (Some (length (h_links h))) []). exists (length (h_shards h)), (mkHeap (h_links h ++ [l]) (h_shards h ++ [c2])), [length (h_shards h)], [length (h_links h)], [].
    split; [reflexivity|]. pose proof (new_link_kept h l) as K1. pose proof (new_shard_kept h1 c2) as K2. split; [eapply kept_trans; [exact K1|exact K2|intros x []|intros x []]|].
    split; [|split; [repeat constructor; intros []|]; split; [repeat constructor; intros []|]; split; [intros z _ []|]; split; [intros z [<-|[]]; lia|]; split; [intros z [<-|[]]; lia|intros z []]].
    rewrite E. cbn [s_size s_builder s_bf s_slots]. eapply (hrep_intro _ _ c2 _ [] [length (h_links h)] []); cbn [h_shards]; [apply new_at|repeat split|split; [reflexivity|]|constructor].
    exists l. split; [cbn [h_links]; apply new_at|]. split; [reflexivity|]. split; [reflexivity|]. split; [|intros E'; match goal with U : forall x, t_la = Some x -> _ |- _ => specialize (U _ E') end; lia]. exists (firstn (maxpadlen s) (lname l)). cbn [s_key]. symmetry. apply firstn_skipn.
  - rewrite bind_lift. destruct (dserv_get w (lto l)) as [nd|e| |]; cbn [rbind]; try reflexivity; [|eexists; split; [reflexivity|apply kept_refl]]. destruct nd as [p d|p d ls]; [cbn [NewHamtFromDag]; eexists; split; [reflexivity|apply kept_refl]|].
    destruct (new_links_ok ls h) as (las & E & B & K1 & Hr). unfold bind. rewrite E. pose proof (from_dag_sim _ p d las ls Hr) as D. cbn [h_shards h_links] in D. destruct (NewHamtFromDag (NProto p d ls)) as [ch|e| |].
    + destruct D as (x & h' & D1 & D2 & D3 & Dx). exists x, h', [x], [], las. split; [exact D1|]. split; [eapply kept_trans; [exact K1|exact D2|intros z []|intros z []]|]. split; [exact D3|]. split; [repeat constructor; intros []|]. split; [constructor|]. split; [intros z []|]. split; [intros z [<-|[]]; cbn in Dx; lia|]. split; [intros z []|exact B].
    + eexists. split; [exact D|exact K1].
    + exact D.
    + exact D.
Qed.

(** The invariant during a call. *)
Definition hinv X (h : heap) a F G K (s' : shard) (h' : heap) : Prop := moved X h h' a s' F G K.
Definition slot_at (h : heap) (a : saddr) (i : Z) (x : hslot) : Prop := 0 <= i /\ exists c, nth_error (h_shards h) a = Some c /\ nth_error (c_slots c) (Z.to_nat i) = Some x.

Lemma hget_sim w h a s F G K i : owns h a s F G K ->
  sim (fun c x s' h' => moved [] h h' a s' F G K /\ nth_error (s_slots s') (Z.to_nat i) = Some (SShard c) /\ slot_at h' a i (HShard x)) (hinv [] h a F G K) (get_child w i s) (hget w a i h).
Proof.
  intros O. destruct (owns_cell _ _ _ _ _ _ O) as (c & F' & G0 & G' & Hc & Hh & Hv & Hr & EF & EG). unfold hget. rewrite (get_cell_ok h a c _ Hc). unfold get_child.
  assert (Ec : c_check c i = check s i) by (unfold c_check, check, zlen; now rewrite (hreps_len _ _ _ _ _ _ Hr)). rewrite Ec. rewrite bind_lift. destruct (check s i) as [[]|e| |] eqn:Ek; cbn [sim fst snd]; [|split; [reflexivity|now apply owns_moved]|exact I|exact I].
  assert (Hi : 0 <= i < zlen (s_slots s)) by (unfold check in Ek; destruct ((zlen (s_slots s) <=? i) || (i <? 0)) eqn:E; [discriminate|]; apply orb_false_iff in E; lia).
  destruct (nth_error (s_slots s) (Z.to_nat i)) as [y|] eqn:En.
  2:{ apply nth_error_None in En. unfold zlen in Hi. lia. }
  destruct (focus _ _ _ _ _ _ _ _ O En) as (c' & x & x1 & x2 & s1 & s2 & G0' & F1 & G1 & K1 & Fc & Gc & Kc & F2 & G2 & K2 & Hc' & Hh' & Hv' & Ex & Es & L1 & L2 & -> & -> & -> & R1 & Rc & R2). rewrite Hc in Hc'. injection Hc' as <-.
  assert (Enx : nth_error (c_slots c) (Z.to_nat i) = Some x) by (rewrite Ex, nth_error_app2, <- L1, Nat.sub_diag by lia; reflexivity). rewrite Enx.
  destruct y as [l|ch].
  - inversion Rc; subst x Fc Gc Kc. match goal with H : hreps h [] [] _ _ _ |- _ => inversion H; subst end. pose proof (hload_sim w h c s la l (ow_t _ _ _ _ _ _ O) Hh ltac:(assumption)) as D. unfold bind at 1. destruct (loadChild w s l) as [ch|e| |].
    + destruct D as (x & h1 & Fc & Gc & Kc & D1 & Dk & Dr & DF & DG & DK & BF & BG & BK). rewrite D1. cbn [sim fst snd bind put_cell ret].
      set (h2 := mkHeap (h_links h1) (set_nth a (c_set_slot (HShard x) i c) (h_shards h1))). pose proof (put_kept h1 a (c_set_slot (HShard x) i c)) as Dp. fold h2 in Dp.
      assert (Hk : kept h h2 [a] []) by (eapply kept_trans; [eapply kept_weaken; [exact Dk|intros z []|intros z []]|exact Dp|apply sub_refl|apply sub_refl]).
      assert (Ha : nth_error (h_shards h1) a = Some c) by (apply (kp_s _ _ _ _ Dk); [exact Hc|intros []]).
      assert (Ha2 : nth_error (h_shards h2) a = Some (c_set_slot (HShard x) i c)) by (cbn [h2 h_shards]; eapply set_nth_same, Ha).
      assert (Dr' : hrep h2 x ch Fc Gc Kc).
      { apply (proj1 (hrep_frame _ _ _ _ Dp)); [exact Dr| |intros z _ []|intros z _ []]. intros z Hz [<-|[]]. apply BF in Hz. apply nth_lt in Hc. lia. }
      split; [|split].
      * assert (Ei : i = zlen x1) by (unfold zlen; lia). subst i. apply (refocus h h2 [] [] a s c (HLink la) (HShard x) x1 x2 s1 s2 (SLink l) (SShard ch) G0' F1 G1 K1 [] [] [la] F2 G2 K2 Fc Gc Kc); auto; try congruence; try (intros z []; fail).
        -- rewrite <- (app_nil_r Fc), <- (app_nil_r Gc), <- (app_nil_r Kc). constructor; [exact Dr'|constructor].
        -- intros z Hz. right. now apply BF.
        -- intros z Hz. right. now apply BG.
        -- intros z Hz. right. now apply BK.
      * unfold set_child. cbn [set_slots s_slots]. eapply set_nth_same, En.
      * split; [lia|]. eexists. split; [exact Ha2|]. cbn. eapply set_nth_same, Enx.
    + destruct D as (h1 & D1 & Dk). rewrite D1. cbn [sim fst snd]. split; [reflexivity|]. exact (moved_alloc h h1 [] a s _ _ _ O Dk ltac:(intros z [])).
    + destruct (hloadChild w c la h) as [r h1]. cbn [fst] in D. subst r. exact I.
    + destruct (hloadChild w c la h) as [r h1]. cbn [fst] in D. subst r. exact I.
  - assert (Hx : exists a0, x = HShard a0) by (inversion Rc; eauto). destruct Hx as [a0 ->]. unfold sim, ret. cbn [fst snd]. split; [exact (owns_moved _ _ _ _ _ _ O)|]. split; [exact En|]. split; [lia|]. exists c. auto.
Qed.
End Get.
