(** What saving a changed sharded directory writes: the shards on the paths of the changed names. *)
From Coq Require Import Sorting.Sorted Sorting.Permutation.
From Verif Require Import Base Pb PbProofs FSNode FSNodeProofs Dag DagProofs Builder HashBits Bitfield SpecHash HashProofs Hamt SpecHamt HamtExec HamtRep HamtNode HamtRun HamtFacts SpecPath PathProofs TreeProofs SizesProofs SpecSharing SharingProofs.

Section Few.
  Variables (hash : bytes -> bytes) (L lg W : Z) (P : prefix -> Prop).
  Hypothesis Hlg : 3 <= lg <= 10.
  Hypothesis HW : Logtwo W = Ok lg.
  Hypothesis Hhash : forall k, 8 * zlen (hash k) = L.
  Hypothesis HP : forall p, P p -> p = proto_prefix (Some p).
  Notation wf := (wf hash L lg).
  Notation wfk := (wfk hash L lg).
  Notation ser := (ser W P).
  Notation rep := (rep W P).
  Notation reps := (reps W P).
  Notation slot_of := (slot_of hash lg).
  Notation pad := (pad W).
  Notation onp := (on_path hash W).

  (** The loaded sub-shards are on the paths of names of [K]. *)
  Inductive few (K : bytes -> Prop) (c : Z) (ds : shard) : Prop :=
  | few_slots : (forall is, bitmap W (s_bf ds) is -> StronglySorted Z.lt is -> Forall (fun i => 0 <= i < W) is ->
      Forall2 (fun i x => forall ch, x = SShard ch -> isValueNode ch = false ->
        (exists k, K k /\ slot_of k c = i) /\ few (fun k => K k /\ slot_of k c = i) (c + lg) ch) is (s_slots ds)) -> few K c ds.
  Definition few_slot (K : bytes -> Prop) (c : Z) (i : Z) (x : slot shard) : Prop :=
    forall ch, x = SShard ch -> isValueNode ch = false -> (exists k, K k /\ slot_of k c = i) /\ few (fun k => K k /\ slot_of k c = i) (c + lg) ch.

  Lemma few_elim K c ds kids : few K c ds -> bitmap W (s_bf ds) (map fst kids) -> wfk c kids -> Forall2 (fun y x => few_slot K c (fst y) x) kids (s_slots ds).
  Proof.
    intros [H] Hb Hw. pose proof (wfk_range hash L lg W Hlg HW Hhash _ _ Hw) as HR. destruct Hw as (_ & Hs & _). specialize (H _ Hb Hs HR). remember (map fst kids) as is eqn:Ei. revert kids Ei. clear - H.
    induction H as [|i x is sl H1 _ IH]; intros kids Ei; destruct kids as [|y kids]; try discriminate; [constructor|]. cbn [map] in Ei. injection Ei as -> ->. constructor; [exact H1|now apply IH].
  Qed.
  Lemma few_intro K c ds kids : bitmap W (s_bf ds) (map fst kids) -> wfk c kids -> Forall2 (fun y x => few_slot K c (fst y) x) kids (s_slots ds) -> few K c ds.
  Proof.
    intros Hb Hw HF. pose proof (wfk_range hash L lg W Hlg HW Hhash _ _ Hw) as HR. destruct Hw as (_ & Hs & _). constructor. intros is Hb' Hs' HR'.
    assert (E : is = map fst kids).
    { apply sorted_same; auto. destruct Hb as [_ Hb], Hb' as [_ Hb']. rewrite Forall_forall in HR, HR'. intros i. split; intros Hi; [apply Hb; [auto|]; apply Hb'; auto|apply Hb'; [auto|]; apply Hb; auto]. }
    subst is. clear - HF. induction HF; cbn [map]; constructor; auto.
  Qed.
  Lemma few_links K c ds kids : bitmap W (s_bf ds) (map fst kids) -> wfk c kids -> length kids = length (s_slots ds) -> Forall (fun x => exists l, x = SLink l) (s_slots ds) -> few K c ds.
  Proof.
    intros Hb Hw Hl HF. apply (few_intro K c ds kids Hb Hw). clear Hb Hw. revert kids Hl. induction HF as [|x sl (l & ->) HF IH]; intros [|y kids] Hl; try discriminate; constructor; [|apply IH; now injection Hl].
    intros ch [=].
  Qed.
  Lemma few_mid U K c ds pre i t post : few K c ds -> reps U ds (pre ++ (i, t) :: post) -> wfk c (pre ++ (i, t) :: post) ->
    exists sa y sb, s_slots ds = sa ++ y :: sb /\ length sa = length pre /\ Forall2 (fun y x => few_slot K c (fst y) x) pre sa /\ few_slot K c i y /\ Forall2 (fun y x => few_slot K c (fst y) x) post sb.
  Proof. intros Hf Hr Hw. assert (F := few_elim K c ds _ Hf ltac:(apply Hr) Hw). apply forall2_split in F. exact F. Qed.
  Lemma few_set U K c ds pre i t post x : few K c ds -> reps U ds (pre ++ (i, t) :: post) -> wfk c (pre ++ (i, t) :: post) -> few_slot K c i x -> few K c (set_child x (zlen pre) ds).
  Proof.
    intros Hf Hr Hw Hx. destruct (few_mid U K c ds pre i t post Hf Hr Hw) as (sa & y & sb & E & El & F1 & _ & F2). apply (few_intro K c _ (pre ++ (i, t) :: post)); [apply Hr|exact Hw|].
    unfold set_child, set_slots. cbn [s_slots]. unfold zlen. rewrite Nat2Z.id, E, <- El, set_nth_mid. apply Forall2_app; [assumption|]. constructor; assumption.
  Qed.
  Lemma value_slot K c i ch : isValueNode ch = true -> few_slot K c i (SShard ch).
  Proof. intros H ch' [= <-] H'. congruence. Qed.
  Lemma link_slot K c i l : few_slot K c i (SLink l).
  Proof. intros ch [=]. Qed.

  Lemma few_rm U K c ds ds' pre i t post : few K c ds -> reps U ds (pre ++ (i, t) :: post) -> wfk c (pre ++ (i, t) :: post) -> wfk c (pre ++ post) -> rm i ds = Ok ds' -> few K c ds'.
  Proof.
    intros Hf Hr Hw Hw' E. destruct (few_mid U K c ds pre i t post Hf Hr Hw) as (sa & y & sb & Es & El & F1 & _ & F2).
    destruct (rm_spec hash L lg W P Hlg HW Hhash U c pre post ds t i Hr Hw) as (ds1 & E1 & Hr1). rewrite E in E1. injection E1 as <-.
    apply (few_intro K c _ (pre ++ post)); [apply Hr1|exact Hw'|]. assert (Ed : s_slots ds' = sa ++ sb); [|rewrite Ed; now apply Forall2_app].
    unfold rm, sliceIndex in E. rewrite (slice_spec hash L lg W P Hlg HW Hhash U c ds pre t post i Hr Hw) in E. cbn [rbind] in E. destruct (check ds (zlen pre)); try discriminate. cbn [rbind] in E. destruct (bf_unset (s_bf ds) i); try discriminate. cbn [rbind] in E.
    injection E as <-. cbn [set_slots s_slots]. rewrite Es. f_equal.
    - unfold ztake, zlen. rewrite Nat2Z.id, <- El, firstn_app, Nat.sub_diag, firstn_all, firstn_O. apply app_nil_r.
    - unfold zdrop, zlen. replace (Z.to_nat (Z.of_nat (length pre) + 1)) with (length sa + 1)%nat by lia. rewrite skipn_app. rewrite skipn_all2 by lia. replace (length sa + 1 - length sa)%nat with 1%nat by lia. reflexivity.
  Qed.
  Lemma few_insert U K c ds ds' pre k l post : few K c ds -> reps U ds (pre ++ post) -> wfk c (pre ++ post) -> k <> [] ->
    Forall (fun x => fst x < slot_of k c) pre -> Forall (fun x => slot_of k c < fst x) post -> insert k (Some l) (slot_of k c) ds = Ok ds' -> few K c ds'.
  Proof.
    intros Hf Hr Hw Hk Ha Hb E. destruct (insert_spec hash L lg W P Hlg HW Hhash U c pre post ds k l _ Hr Hw Hk eq_refl Ha Hb) as (ds1 & E1 & Hr1). rewrite E in E1. injection E1 as <-.
    assert (F := few_elim K c ds _ Hf ltac:(apply Hr) Hw). apply Forall2_app_inv_l in F as (sa & sb & F1 & F2 & Es). pose proof (forall2_length _ _ _ F1) as L1.
    apply (few_intro K c _ (pre ++ (slot_of k c, Leaf k (content l)) :: post)); [apply Hr1| |].
    { apply (wfk_insert hash L lg); auto. intros k1 [<-|[]]. reflexivity. }
    pose proof (slot_range hash L lg W Hlg HW Hhash k c) as R. pose proof (wfk_range hash L lg W Hlg HW Hhash _ _ Hw) as HR.
    assert (Hbf : bf_before (s_bf ds) (slot_of k c) = Ok (zlen pre)).
    { replace (zlen pre) with (zlen (map fst pre)) by (unfold zlen; now rewrite map_length). destruct Hr as (_ & _ & _ & H4 & _). destruct Hw as (_ & Hs & _). rewrite map_app in *. eapply (bitmap_before hash L); eauto; rewrite Forall_map; [assumption|].
      eapply Forall_impl; [|exact Hb]. cbn. intros; lia. }
    unfold insert, sliceIndex in E. rewrite Hbf in E. cbn [rbind] in E. unfold NewShardValue in E. assert (M : forall v, makeShard 256 k v = Ok (mkShard 256 None (repeat x00 32) k v [])) by reflexivity. rewrite M in E. cbn [rbind] in E.
    destruct (_ <? _); [discriminate|]. destruct (bf_set (s_bf ds) (slot_of k c)); try discriminate. cbn [rbind] in E. injection E as <-. cbn [set_slots s_slots].
    rewrite Es. assert (T1 : ztake (zlen pre) (sa ++ sb) = sa). { unfold ztake, zlen. rewrite Nat2Z.id, L1, firstn_app, Nat.sub_diag, firstn_all, firstn_O. apply app_nil_r. }
    assert (T2 : zdrop (zlen pre) (sa ++ sb) = sb). { unfold zdrop, zlen. rewrite Nat2Z.id, L1, skipn_app, Nat.sub_diag, skipn_all. reflexivity. }
    rewrite T1, T2. apply Forall2_app; [exact F1|]. constructor; [|exact F2]. apply value_slot. unfold isValueNode. cbn [s_key s_val]. now destruct k.
  Qed.

  (** A loaded child has no loaded children. *)
  Lemma load_links nd ds : NewHamtFromDag nd = Ok ds -> Forall (fun x => exists l, x = SLink l) (s_slots ds).
  Proof.
    intros El. unfold NewHamtFromDag in El. destruct nd as [|p dt ls]; try discriminate. destruct (FSNodeFromBytes _); try discriminate. cbn [rbind] in El. destruct (negb _); [discriminate|]. destruct (negb _); [discriminate|]. destruct (makeShard _ _ _); try discriminate. cbn [rbind] in El.
    destruct (bf_setbytes _ _); try discriminate. injection El as <-. cbn [s_slots]. apply Forall_forall. intros x Hx. apply in_map_iff in Hx as (l & <- & _). eauto.
  Qed.
  Lemma child_few U K c w ds pre i kk post k ch s : few K c ds -> reps U ds (pre ++ (i, Branch kk) :: post) -> wfk c (pre ++ (i, Branch kk) :: post) -> K k -> slot_of k c = i ->
    get_child w (zlen pre) ds = (Ok ch, s) -> rep U (SShard ch) (Branch kk) -> few (fun k => K k /\ slot_of k c = i) (c + lg) ch.
  Proof.
    intros Hf Hr Hw Hk Hi Hg Hch. destruct (few_mid U K c ds pre i _ post Hf Hr Hw) as (sa & y & sb & Es & El & _ & Fy & _). destruct (wfk_mid hash L lg W Hlg HW Hhash _ _ _ _ _ Hw) as (_ & Wt & _).
    assert (En : nth_error (s_slots ds) (Z.to_nat (zlen pre)) = Some y) by (rewrite Es; unfold zlen; rewrite Nat2Z.id, <- El; apply nth_error_mid).
    unfold get_child in Hg. destruct (check ds (zlen pre)); try discriminate. rewrite En in Hg. destruct y as [l|ch'].
    - destruct (loadChild w ds l) as [ch'| | |] eqn:Elc; try discriminate. injection Hg as -> _. apply (wf_branch hash L lg Hlg) in Wt as [_ Wk]. pose proof (isValue_branch lg W P Hlg U ch kk Hch) as Ev. apply (rep_branch lg W P Hlg) in Hch.
      apply (few_links _ _ ch kk); [apply Hch|exact Wk|destruct Hch as (_ & _ & _ & _ & HF); exact (forall2_length _ _ _ HF)|].
      unfold loadChild in Elc. destruct (childLinkType ds l) as [[|]| | |]; try discriminate; cbn [rbind] in Elc.
      + unfold makeShardValue in Elc. destruct Hr as (_ & Hs & _). rewrite Hs, (makeShard_W lg W Hlg HW) in Elc. cbn [rbind] in Elc. destruct (_ <? _)%nat; [discriminate|]. injection Elc as <-. constructor.
      + destruct (dserv_get w (lto l)) as [nd| | |]; try discriminate. cbn [rbind] in Elc. exact (load_links nd ch Elc).
    - injection Hg as -> _. apply (Fy ch eq_refl). exact (isValue_branch lg W P Hlg U ch kk Hch).
  Qed.

  Lemma find_few U fuel : forall (K : bytes -> Prop) w c ds kids k, (Z.to_nat (L - c) < fuel)%nat -> 0 <= c -> reps U ds kids -> wfk c kids -> k <> [] -> K k -> few K c ds ->
    few K c (snd (getValue fuel w (mkHB (hash k) c) k ds)).
  Proof.
    induction fuel as [|fuel IH]; intros K w c ds kids k Hf Hc Hr Hwf Hk HK Fw; [lia|].
    assert (HcL : c + lg <= L) by apply Hwf. pose proof (slot_range hash L lg W Hlg HW Hhash k c) as Rg.
    cbn [getValue]. unfold bind, get_shard, lift, ret, throw, has, sliceIndex. destruct (reps_lg lg W P HW U _ _ Hr) as [Etl _]. rewrite Etl. rewrite (next_hash hash L lg Hlg Hhash) by assumption.
    destruct (bitmap_has hash L W Hhash (s_bf ds) (map fst kids) (slot_of k c)) as (b & Eb & Hb); [apply Hr|assumption|]. rewrite Eb. destruct b; [|exact Fw].
    assert (Hin : In (slot_of k c) (map fst kids)) by (now apply Hb). destruct (split_slot hash L lg _ _ _ Hwf Hin) as (pre & t & post & ->).
    rewrite (slice_spec hash L lg W P Hlg HW Hhash U c ds pre t post _ Hr Hwf). pose proof (wfk_mid hash L lg W Hlg HW Hhash _ _ _ _ _ Hwf) as (Kt & Wt & _ & _ & _).
    destruct (get_child_spec hash L lg W P Hlg HW Hhash U w ds pre (slot_of k c) t post (c + lg) Hr Wt HP) as [(ch & Hch & Eg)|[Eg Hff]].
    2:{ rewrite Eg. exact Fw. }
    rewrite Eg. destruct t as [k0 v0|kk].
    - destruct (isValue_leaf W P U ch k0 v0 Wt Hch) as (Ev & Ek & l0 & El & Ec & Ep). rewrite Ev, Ek, El. destruct (bytes_eqb k0 k); cbn [snd]; (eapply few_set; [exact Fw|exact Hr|exact Hwf|now apply value_slot]).
    - pose proof (child_few U K c w ds pre _ kk post k ch _ Fw Hr Hwf HK eq_refl Eg Hch) as Fc.
      rewrite (isValue_branch lg W P Hlg U ch kk Hch). apply (rep_branch lg W P Hlg) in Hch. apply (wf_branch hash L lg Hlg) in Wt as [_ Wk]. unfold on_child.
      assert (HroomL : c + lg + lg <= L) by apply Wk. specialize (IH (fun x => K x /\ slot_of x c = slot_of k c) w (c + lg) ch kk k ltac:(lia) ltac:(lia) Hch Wk Hk (conj HK eq_refl) Fc).
      destruct (getValue fuel w (mkHB (hash k) (c + lg)) k ch) as [r1 ch1]. cbn [snd] in IH.
      assert (G : few K c (set_child (SShard ch1) (zlen pre) (set_child (SShard ch) (zlen pre) ds))).
      { rewrite set_child_twice. eapply few_set; [exact Fw|exact Hr|exact Hwf|]. intros ch' [= <-] _. split; [exists k; auto|exact IH]. }
      destruct r1 as [o|e| |]; exact G.
  Qed.

  (** The name being set or removed, or the only name there is, is one of [K]. *)
  Definition driven (K : bytes -> Prop) (k : bytes) (kids : list (Z * trie)) : Prop := K k \/ (length (entriesk kids) <= 1)%nat /\ forall k0, In k0 (keysk kids) -> K k0.

  Lemma swap_few U fuel : forall (K : bytes -> Prop) w c ds kids k value, (Z.to_nat (L - c) < fuel)%nat -> 0 <= c -> reps U ds kids -> wfk c kids -> k <> [] -> prefixed W k value -> driven K k kids -> few K c ds ->
    few K c (snd (swapValue hash fuel w (mkHB (hash k) c) k value ds)).
  Proof.
    induction fuel as [|fuel IH]; intros K w c ds kids k value Hf Hc Hr Hwf Hk Hpv HD Fw; [lia|].
    assert (HcL : c + lg <= L) by apply Hwf. pose proof (slot_range hash L lg W Hlg HW Hhash k c) as Rg.
    cbn [swapValue]. unfold bind, get_shard, lift, ret, throw, has, sliceIndex. destruct (reps_lg lg W P HW U _ _ Hr) as [Etl _]. rewrite Etl. rewrite (next_hash hash L lg Hlg Hhash) by assumption.
    destruct (bitmap_has hash L W Hhash (s_bf ds) (map fst kids) (slot_of k c)) as (b & Eb & Hb); [apply Hr|assumption|]. rewrite Eb. destruct b; cbn [negb].
    2:{ assert (Hnin : ~ In (slot_of k c) (map fst kids)) by (intros Hi; apply Hb in Hi; discriminate).
      destruct (split_free hash L lg _ _ _ Hwf Hnin) as (pre & post & -> & Ha & Hp). unfold upd_shard. destruct value as [l|]; cbn [option_map].
      - destruct (insert_spec hash L lg W P Hlg HW Hhash U c pre post ds k l _ Hr Hwf Hk eq_refl Ha Hp) as (ds' & E & Hr'). rewrite E. cbn [snd]. eapply few_insert; eauto.
      - exact Fw. }
    assert (Hin : In (slot_of k c) (map fst kids)) by (now apply Hb). destruct (split_slot hash L lg _ _ _ Hwf Hin) as (pre & t & post & ->).
    rewrite (slice_spec hash L lg W P Hlg HW Hhash U c ds pre t post _ Hr Hwf). pose proof (wfk_mid hash L lg W Hlg HW Hhash _ _ _ _ _ Hwf) as (Kt & Wt & _ & _ & _).
    assert (Hwf0 : wfk c (pre ++ post)) by (exact (wfk_remove hash L lg Hlg c pre _ post Hwf)).
    destruct (get_child_spec hash L lg W P Hlg HW Hhash U w ds pre (slot_of k c) t post (c + lg) Hr Wt HP) as [(ch & Hch & Eg)|[Eg Hff]].
    2:{ rewrite Eg. exact Fw. }
    rewrite Eg. pose proof (reps_set W P U ds pre _ t t post (SShard ch) Hr Hch) as Hr1. destruct t as [k0 v0|kk].
    - destruct (isValue_leaf W P U ch k0 v0 Wt Hch) as (Ev & Ek & l0 & El & Ec & Ep). rewrite Ev, Ek, El.
      assert (F1 : few K c (set_child (SShard ch) (zlen pre) ds)) by (eapply few_set; [exact Fw|exact Hr|exact Hwf|now apply value_slot]).
      destruct (bytes_eqb k0 k) eqn:E0.
      + unfold upd_shard. destruct value as [l|].
        * cbn [snd]. rewrite set_child_twice. eapply few_set; [exact Fw|exact Hr|exact Hwf|]. apply value_slot. unfold isValueNode, set_val. cbn [s_key s_val]. rewrite Ek. now destruct k0.
        * destruct (rm_spec hash L lg W P Hlg HW Hhash U c pre post _ _ _ Hr1 Hwf) as (ds' & E & Hr'). rewrite E. cbn [snd]. eapply few_rm; [exact F1|exact Hr1|exact Hwf|exact Hwf0|exact E].
      + destruct value as [l|]; [|exact F1]. destruct Hr as (R1 & R2 & R3 & R4 & R5). rewrite R2. unfold NewShard, NewShardValue. rewrite (makeShard_W lg W Hlg HW). cbn [hb_consumed].
        set (fresh := SetCidBuilder (s_builder ds) (mkShard W None (zeros W) [] None [])).
        assert (Hfresh : reps U fresh []) by (apply (reps_new hash L lg W P Hlg HW Hhash U (s_builder ds) R3); apply (makeShard_W lg W Hlg HW)). unfold newConsumedHashBits.
        destruct (Z_le_gt_dec (c + lg + lg) L) as [Hroom|Hno].
        2:{ assert (Edeep : swapValue hash fuel w (mkHB (hash k) (c + lg)) k (Some l) fresh = (Err ETooDeep, fresh)).
            { destruct fuel as [|fuel']; [lia|]. cbn [swapValue]. unfold bind, get_shard, lift. destruct (reps_lg lg W P HW U _ _ Hfresh) as [-> _]. rewrite (next_hash_end hash L lg Hhash) by lia. reflexivity. }
            rewrite Edeep. exact F1. }
        set (K' := fun x => K x /\ slot_of x c = slot_of k c).
        assert (S0 : slot_of k0 c = slot_of k c) by (apply Kt; now left).
        assert (D0 : K k \/ K k0).
        { destruct HD as [HD|[_ HD]]; [now left|]. right. apply HD. rewrite keysk_app, keysk_cons, !in_app_iff. right. left. now left. }
        pose proof (IH K' w (c + lg) fresh [] k (Some l) ltac:(lia) ltac:(lia) Hfresh (wfk_nil hash L lg _ Hroom) Hk Hpv) as T1.
        assert (D1 : driven K' k []) by (right; split; [cbn; lia|intros x []]).
        assert (Ff : few K' (c + lg) fresh) by (apply (few_links K' _ fresh []); [apply Hfresh|apply (wfk_nil hash L lg _ Hroom)|reflexivity|constructor]).
        specialize (T1 D1 Ff).
        pose proof (swap_spec hash L lg W P Hlg HW Hhash U HP fuel w (c + lg) fresh [] k (Some l) ltac:(lia) ltac:(lia) Hfresh (wfk_nil hash L lg _ Hroom) Hk Hpv) as S1.
        destruct (swapValue hash fuel w (mkHB (hash k) (c + lg)) k (Some l) fresh) as [r1 fresh1]. cbn [fst snd option_map] in S1, T1. destruct S1 as (kids1 & A1 & A2 & A3).
        destruct r1 as [o1|e1| |]; [|exact F1|exact F1|exact F1].
        destruct A3 as (o1' & _ & A3). pose proof (upd_length _ _ _ _ _ A3) as A4. pose proof (upd_keys _ _ _ _ _ A3) as A5. cbn [entriesk flat_map length] in A4.
        assert (D2 : driven K' k0 kids1).
        { destruct D0 as [D0|D0]; [|left; split; [exact D0|exact S0]]. right. split; [destruct o1'; lia|]. intros x Hx. destruct (A5 x Hx) as [->|[]]. split; [exact D0|reflexivity]. }
        pose proof (IH K' w (c + lg) fresh1 kids1 k0 (Some l0) ltac:(lia) ltac:(lia) A1 A2 Wt Ep D2 T1) as T2.
        destruct (swapValue hash fuel w (mkHB (hash k0) (c + lg)) k0 (Some l0) fresh1) as [r2 fresh2]. cbn [fst snd] in T2.
        destruct r2 as [o2|e2| |]; [|exact F1|exact F1|exact F1]. unfold upd_shard. cbn [snd]. rewrite set_child_twice.
        eapply few_set; [exact Fw|unfold HamtRep.reps; repeat (split; [eassumption|]); eassumption|exact Hwf|]. intros ch' [= <-] _. split; [|exact T2]. destruct D0 as [D0|D0]; [exists k; auto|exists k0; auto].
    - assert (HK : K k).
      { destruct HD as [HD|[HD _]]; [exact HD|]. exfalso. apply (wf_branch hash L lg Hlg) in Wt as [Wn _]. rewrite entriesk_app, entriesk_cons, !app_length in HD. cbn [entries] in HD. fold (entriesk kk) in HD. lia. }
      pose proof (child_few U K c w ds pre _ kk post k ch _ Fw Hr Hwf HK eq_refl Eg Hch) as Fc.
      rewrite (isValue_branch lg W P Hlg U ch kk Hch). apply (rep_branch lg W P Hlg) in Hch. apply (wf_branch hash L lg Hlg) in Wt as [Wn Wk]. unfold on_child.
      assert (HroomL : c + lg + lg <= L) by apply Wk. pose proof (IH (fun x => K x /\ slot_of x c = slot_of k c) w (c + lg) ch kk k value ltac:(lia) ltac:(lia) Hch Wk Hk Hpv (or_introl (conj HK eq_refl)) Fc) as T1.
      pose proof (swap_spec hash L lg W P Hlg HW Hhash U HP fuel w (c + lg) ch kk k value ltac:(lia) ltac:(lia) Hch Wk Hk Hpv) as S1.
      destruct (swapValue hash fuel w (mkHB (hash k) (c + lg)) k value ch) as [r1 ch1]. cbn [fst snd] in S1, T1. destruct S1 as (kk1 & A1 & A2 & A3).
      assert (G : few K c (set_child (SShard ch1) (zlen pre) (set_child (SShard ch) (zlen pre) ds))).
      { rewrite set_child_twice. eapply few_set; [exact Fw|exact Hr|exact Hwf|]. intros ch' [= <-] _. split; [exists k; auto|exact T1]. }
      assert (S2 : forall x, few_slot K c (slot_of k c) x -> few K c (set_child x (zlen pre) (set_child (SShard ch1) (zlen pre) (set_child (SShard ch) (zlen pre) ds)))).
      { intros x Hx. rewrite !set_child_twice. eapply few_set; eauto. }
      destruct r1 as [o1|e1| |]; [|exact G|exact G|exact G].
      destruct value as [l|]; [exact G|]. unfold upd_shard.
      destruct (s_slots ch1) as [|x1 [|x2 sr]] eqn:Esl.
      + destruct (rm _ _) as [ds'| | |] eqn:Er; [|exact G|exact G|exact G]. cbn [snd]. rewrite set_child_twice in Er, G.
        assert (Hr2 : reps U (set_child (SShard ch1) (zlen pre) ds) (pre ++ (slot_of k c, Branch kk1) :: post)) by (eapply reps_set; [exact Hr|]; now apply (rep_branch lg W P Hlg)).
        exfalso. destruct A3 as (o & Ho & Hu). pose proof (upd_length _ _ _ _ _ Hu) as Hlen. cbn [option_map] in *. assert (F2 : Forall2 (fun y x => rep U x (snd y)) kk1 (s_slots ch1)) by apply A1. rewrite Esl in F2. inversion F2; subst. cbn in Hlen. destruct o; [|contradiction]. lia.
      + destruct x1 as [slnk|sch].
        * destruct (childLinkType ch1 slnk) as [[|]| | |]; try exact G. cbn [snd]. apply S2. apply link_slot.
        * destruct (isValueNode sch) eqn:Ev; [|exact G]. cbn [snd]. apply S2. now apply value_slot.
      + destruct x1; exact G.
  Qed.

  (** ** Saving *)

  Definition adds (K : bytes -> Prop) (c : Z) (nd : node) (x : node * option Z) : Prop := fst x = nd \/ exists k, K k /\ onp k c nd (fst x).
  Definition adds_below (K : bytes -> Prop) (c : Z) (ls : list link) (x : node * option Z) : Prop :=
    exists l k, In l ls /\ K k /\ slot_link W l (slot_of k c) /\ (fst x = lto l \/ onp k (c + lg) (lto l) (fst x)).

  Lemma Node_sealed ds w nd w' : Node ds w = (Ok nd, w') -> seal nd = nd.
  Proof.
    rewrite Node_eq. unfold bind, lift. destruct (set_bits _ _ _); try discriminate. destruct (node_go _ _ _ _) as [[ls| | |] w1]; try discriminate. destruct (HAMTShardData _ _ _); try discriminate.
    destruct (dserv_add _ _ _) as [[[]| | |] w2]; try discriminate. unfold ret. intros E. injection E as <- _. exact (seal_idem (NProto (proto_prefix (s_builder ds)) a0 ls)).
  Qed.
  Lemma added_one n o w w' : dserv_add n o w = (Ok tt, w') -> w_added w' = w_added w ++ [(seal n, o)].
  Proof. unfold dserv_add. destruct (w_addok w (w_calls w)); [|discriminate]. intros [= <-]. reflexivity. Qed.

  Definition node_adds_for (U : node -> Prop) (kk : list (Z * trie)) : Prop := forall (K : bytes -> Prop) c ds w nd w', reps U ds kk -> wfk c kk -> few K c ds -> Node ds w = (Ok nd, w') ->
    exists added, w_added w' = w_added w ++ added /\ Forall (adds K c nd) added.

  Lemma node_go_adds U (K : bytes -> Prop) c kids : Forall (fun y => forall kk, snd y = Branch kk -> node_adds_for U kk) kids ->
    forall slots w ls w', Forall (fun x => wf (c + lg) (snd x)) kids -> Forall (fun i => 0 <= i < W) (map fst kids) -> Forall2 (fun y x => rep U x (snd y)) kids slots -> Forall2 (fun y x => few_slot K c (fst y) x) kids slots ->
    node_go pad slots (map fst kids) w = (Ok ls, w') -> exists added, w_added w' = w_added w ++ added /\ Forall (adds_below K c ls) added.
  Proof.
    induction kids as [|[i t] r IH]; intros HI slots w ls w' Hwf HR HF HF' E.
    - inversion HF; subst. cbn in E. injection E as <- <-. exists []. rewrite app_nil_r. auto.
    - inversion HI as [|? ? HI1 HI2]; subst. inversion Hwf as [|? ? W1 W2]; subst. cbn [map fst] in HR. inversion HR as [|? ? R1 R2]; subst. inversion HF as [|? x ? sr Hx HF2]; subst. inversion HF' as [|? ? ? ? Hx' HF2']; subst. cbn [snd map fst] in *.
      cbn [node_go] in E. fold (node_go pad) in E. unfold bind at 1 in E.
      match type of E with context [match ?m w with _ => _ end] => set (mm := m) in E end.
      assert (G : forall l w1, mm w = (Ok l, w1) -> exists added, w_added w1 = w_added w ++ added /\ Forall (adds_below K c [l]) added).
      { intros l w1 Em. unfold mm in Em. clear mm E. destruct x as [l0|ch].
        - destruct (_ <? _)%nat; [discriminate|]. injection Em as _ <-. exists []. rewrite app_nil_r. auto.
        - destruct t as [k v|kk].
          + cbn [HamtRep.wf] in W1. destruct (isValue_leaf W P U ch k v W1 Hx) as (Ev & Ek & l1 & El & _). rewrite Ev, El in Em. unfold bind, ret in Em. injection Em as _ <-. exists []. rewrite app_nil_r. auto.
          + pose proof (isValue_branch lg W P Hlg U ch kk Hx) as Ev. rewrite Ev in Em. apply (rep_branch lg W P Hlg) in Hx. apply (wf_branch hash L lg Hlg) in W1 as [_ Wk]. destruct (Hx' ch eq_refl Ev) as [(k & HK & Hk) Fc].
            unfold bind, ret in Em. destruct (Node ch w) as [[nd| | |] w2] eqn:En; try discriminate. pose proof (Node_sealed _ _ _ _ En) as Hs. destruct (HI1 kk eq_refl _ _ _ _ _ _ Hx Wk Fc En) as (a1 & A1 & A2).
            destruct (dserv_add nd None w2) as [[[]| | |] w3] eqn:Ea; try discriminate. apply added_one in Ea. injection Em as <- <-. cbn [make_link lsize lto]. rewrite Hs in *. destruct Hx as [[-> _] _]. rewrite app_nil_r.
            set (l := mkLink _ _ _). assert (Sl : slot_link W l i) by (apply (slot_link_hex lg W Hlg HW l i R1); reflexivity).
            exists (a1 ++ [(nd, None)]). split; [rewrite Ea, A1; now rewrite app_assoc|]. apply Forall_app. split.
            * eapply Forall_impl; [|exact A2]. intros z [E|(k1 & [K1 S1] & O1)].
              -- exists l, k. split; [now left|]. split; [exact HK|]. rewrite Hk. split; [exact Sl|]. left. exact E.
              -- exists l, k1. split; [now left|]. split; [exact K1|]. rewrite S1. split; [exact Sl|]. right. exact O1.
            * constructor; [|constructor]. exists l, k. split; [now left|]. split; [exact HK|]. rewrite Hk. split; [exact Sl|]. left. reflexivity. }
      destruct (mm w) as [[l| | |] w1]; try discriminate. destruct (G l w1 eq_refl) as (a1 & A1 & A2). unfold bind, ret in E. destruct (node_go pad sr (map fst r) w1) as [[lr| | |] w2] eqn:E2; try discriminate. injection E as <- <-.
      destruct (IH HI2 sr w1 lr w2 W2 R2 HF2 HF2' E2) as (a2 & B1 & B2). exists (a1 ++ a2). split; [rewrite B1, A1; now rewrite app_assoc|]. apply Forall_app. split.
      + eapply Forall_impl; [|exact A2]. intros z (l1 & k & [<-|[]] & H). exists l, k. split; [now left|exact H].
      + eapply Forall_impl; [|exact B2]. intros z (l1 & k & H1 & H). exists l1, k. split; [now right|exact H].
  Qed.

  Lemma node_adds U t : forall kk, t = Branch kk -> node_adds_for U kk.
  Proof.
    induction t as [k v|kids IH] using trie_ind'; intros kk [= <-]. intros K c ds w nd w' Hr Hwf Fw E. rewrite Node_eq in E. pose proof (wfk_range hash L lg W Hlg HW Hhash _ _ Hwf) as HR. pose proof Hr as (H1 & H2 & H3 & H4 & H5). unfold bind, lift in E.
    rewrite H2 in E. rewrite (bitmap_bits hash L lg W Hlg HW Hhash (s_bf ds) (map fst kids)) in E by (auto; apply Hwf). change (length (hexX (W - 1))) with pad in E.
    destruct (node_go pad (s_slots ds) (map fst kids) w) as [[ls| | |] w1] eqn:Eg; try discriminate. destruct (HAMTShardData _ _ _) as [dt| | |]; try discriminate.
    destruct (dserv_add _ _ w1) as [[[]| | |] w2] eqn:Ea; try discriminate. apply added_one in Ea. unfold ret in E. injection E as <- <-. set (nd := seal _) in *.
    destruct (node_go_adds U K c kids IH (s_slots ds) w ls w1) as (a & A1 & A2); auto.
    { destruct Hwf as (_ & _ & Hwf). eapply Forall_impl; [|exact Hwf]. now intros x [_ Hx]. }
    { apply few_elim; [exact Fw|exact H4|exact Hwf]. }
    exists (a ++ [(nd, None)]). split; [rewrite Ea, A1; now rewrite app_assoc|]. apply Forall_app. split; [|constructor; [left; reflexivity|constructor]].
    destruct (pad_digits lg W Hlg HW) as [_ Elg]. eapply Forall_impl; [|exact A2]. intros x (l & k & Hl & HK & Hs & Hx). right. exists k. split; [exact HK|].
    assert (Hl' : In l (node_links nd)) by (unfold nd; cbn [seal node_links]; now apply In_lsort). assert (Hs' : slot_link W l (bits_at (hash k) c (Z.log2 W))) by (rewrite Elg; exact Hs).
    destruct Hx as [->|Hx]; [now apply path_here|]. eapply path_down; [exact Hl'|exact Hs'|]. now rewrite Elg.
  Qed.

  (** ** Histories *)
  Hypothesis HL : lg <= L.
  Notation inv := (inv hash L lg W P).

  Lemma swap_dir_few U d s w k value (K : bytes -> Prop) : inv U d (s, w) -> k <> [] -> prefixed W k value -> K k -> few K 0 s ->
    few K 0 (snd (swapValue hash (hfuel hash k) w (newHashBits hash k) k value s)).
  Proof.
    intros (HU & kids & Hr & Hw & Hd) Hk Hpv HK Fw. cbn [fst snd] in *.
    apply (swap_few U (hfuel hash k) K w 0 s kids k value); auto; [unfold hfuel; pose proof (Hhash k); unfold zlen in *; lia|lia|left; exact HK].
  Qed.
  Lemma exec_few U d s w op k (K : bytes -> Prop) : inv U d (s, w) -> hname op = Some k -> k <> [] -> K k -> few K 0 s ->
    let sw' := snd (hexec hash op (s, w)) in few K 0 (fst sw') /\ exists added, w_added (snd sw') = w_added w ++ added /\ Forall (fun x => given op = Some (fst x)) added.
  Proof.
    intros Hi Hn Hk HK Fw. assert (Nil : forall op, exists added : list (node * option Z), w_added w = w_added w ++ added /\ Forall (fun x => given op = Some (fst x)) added) by (intros o; exists []; rewrite app_nil_r; auto).
    assert (One : forall n w1 op, dserv_add n None w = (Ok tt, w1) -> given op = Some (seal n) -> exists added, w_added w1 = w_added w ++ added /\ Forall (fun x => given op = Some (fst x)) added).
    { intros n w1 o Ea Ho. apply added_one in Ea. rewrite Ea. eexists. split; [reflexivity|]. constructor; [exact Ho|constructor]. }
    destruct op as [k1 n|k1 l|k1 n|k1|k1|k1| | |]; try discriminate; injection Hn as ->; cbn [hexec].
    - unfold Set_, bind, Swap. destruct (dserv_add_spec n None w) as (ra & w1 & Ea & Xa & Ca & Ha). rewrite Ea. destruct Ha as [(-> & _)|[-> _]].
      2:{ cbn [rmap snd fst]. split; [exact Fw|]. assert (E1 : w_added w1 = w_added w) by (unfold dserv_add in Ea; destruct (w_addok _ _); [discriminate|]; injection Ea as <-; reflexivity). rewrite E1. apply Nil. }
      pose proof (swap_dir_few U d s w1 k (Some (make_link (linkNamePrefix s 0 ++ k) n)) K (inv_world hash L lg W P _ _ _ _ _ Hi Xa) Hk (set_prefixed hash L lg W P Hlg HW Hhash _ _ _ _ k n (inv_world hash L lg W P _ _ _ _ _ Hi Xa)) HK Fw) as T.
      destruct (swapValue _ _ _ _ _ _ _) as [r s']. cbn [snd] in T. destruct r as [o|e| |]; cbn [rmap snd fst ret]; (split; [exact T|]); now apply (One n).
    - unfold SetLink, bind, get_shard. pose proof (swap_dir_few U d s w k (Some (mkLink (linkNamePrefix s 0 ++ k) (lsize l) (lto l))) K Hi Hk (setlink_prefixed hash L lg W P Hlg HW Hhash _ _ _ _ k l Hi) HK Fw) as T.
      destruct (swapValue _ _ _ _ _ _ _) as [r s']. cbn [snd] in T. destruct r as [o|e| |]; cbn [rmap snd fst ret]; (split; [exact T|]); apply Nil.
    - unfold Swap. destruct (dserv_add_spec n None w) as (ra & w1 & Ea & Xa & Ca & Ha). rewrite Ea. destruct Ha as [(-> & _)|[-> _]].
      2:{ cbn [rmap snd fst]. split; [exact Fw|]. assert (E1 : w_added w1 = w_added w) by (unfold dserv_add in Ea; destruct (w_addok _ _); [discriminate|]; injection Ea as <-; reflexivity). rewrite E1. apply Nil. }
      pose proof (swap_dir_few U d s w1 k (Some (make_link (linkNamePrefix s 0 ++ k) n)) K (inv_world hash L lg W P _ _ _ _ _ Hi Xa) Hk (set_prefixed hash L lg W P Hlg HW Hhash _ _ _ _ k n (inv_world hash L lg W P _ _ _ _ _ Hi Xa)) HK Fw) as T.
      destruct (swapValue _ _ _ _ _ _ _) as [r s']. cbn [snd] in T. destruct r as [o|e| |]; cbn [rmap snd fst ret]; (split; [exact T|]); now apply (One n).
    - unfold Remove, Take, bind. pose proof (swap_dir_few U d s w k None K Hi Hk Logic.I HK Fw) as T. destruct (swapValue _ _ _ _ _ _ _) as [r s']. cbn [snd] in T. destruct r as [o|e| |]; cbn [rmap snd fst ret]; (split; [exact T|]); apply Nil.
    - unfold Take. pose proof (swap_dir_few U d s w k None K Hi Hk Logic.I HK Fw) as T. destruct (swapValue _ _ _ _ _ _ _) as [r s']. cbn [snd] in T. destruct r as [o|e| |]; cbn [rmap snd fst ret]; (split; [exact T|]); apply Nil.
    - destruct Hi as (HU & kids & Hr & Hw & Hd). cbn [fst snd] in *. unfold Find, newHashBits.
      pose proof (find_few U (hfuel hash k) K w 0 s kids k ltac:(unfold hfuel; pose proof (Hhash k); unfold zlen in *; lia) ltac:(lia) Hr Hw Hk HK Fw) as T. destruct (getValue _ _ _ _ _) as [r s']. cbn [snd fst] in *. split; [exact T|apply Nil].
  Qed.

  Lemma effect_other d op k b r k1 : hname op = Some k -> k1 <> k -> effect d (mkObs op b r) k1 = d k1.
  Proof.
    intros Hn Hk. assert (E : forall v, dput d k v k1 = d k1).
    { intros v. unfold dput. destruct (bytes_eqb _ _) eqn:E; [apply bytes_eqb_eq in E; congruence|reflexivity]. }
    destruct op; try discriminate; injection Hn as ->; unfold effect; cbn [o_op o_res]; destruct r; try reflexivity; apply E.
  Qed.
  Lemma run_few U (K : bytes -> Prop) ops : forall d sw, inv U d sw -> few K 0 (fst sw) -> Forall (fun op => exists k, hname op = Some k /\ k <> [] /\ K k) ops ->
    let sw' := snd (hrun hash ops sw) in
    (exists d', inv U d' sw' /\ forall k, ~ K k -> d' k = d k) /\ few K 0 (fst sw') /\ exists added, w_added (snd sw') = w_added (snd sw) ++ added /\ Forall (fun x => exists op, In op ops /\ given op = Some (fst x)) added.
  Proof.
    induction ops as [|op ops IH]; intros d [s w] Hi Fw HF; cbn [hrun].
    - cbn [snd fst]. split; [eauto|]. split; [exact Fw|]. exists []. rewrite app_nil_r. auto.
    - inversion HF as [|? ? (k & Hn & Hk & HK) F2]; subst. pose proof (exec_few U d s w op k K Hi Hn Hk HK Fw) as T.
      pose proof (exec_ok hash L lg W P Hlg HW Hhash HP HL U d (s, w) op Hi ltac:(rewrite Hn; congruence)) as S1. destruct (hexec hash op (s, w)) as [r sw1]. destruct S1 as (X1 & _ & V & I1 & HV). cbn [fst snd] in *.
      destruct HV as [->|[Hrl _]]; [|destruct op; discriminate]. destruct T as (F1 & a1 & A1 & A2). specialize (IH _ sw1 I1 F1 F2). destruct (hrun hash ops sw1) as [h sw2]. cbn [fst snd] in *. destruct IH as ((d2 & I2 & D2) & F3 & a2 & B1 & B2).
      split; [exists d2; split; [exact I2|]; intros k1 NK; rewrite D2 by exact NK; apply (effect_other d op k); [exact Hn|congruence]|]. split; [exact F3|]. exists (a1 ++ a2). split; [rewrite B1, A1; now rewrite app_assoc|]. apply Forall_app. split.
      + eapply Forall_impl; [|exact A2]. intros x Hx. exists op. split; [now left|exact Hx].
      + eapply Forall_impl; [|exact B2]. intros x (o & Ho & Hx). exists o. split; [now right|exact Hx].
  Qed.
End Few.

Section Facts.
  Variables (hash : bytes -> bytes) (n : nat) (W : Z) (b : option prefix).
  Hypothesis Hn : (2 <= n)%nat.
  Hypothesis Hh : forall k, length (hash k) = n.
  Hypothesis Hv : valid_width W.

  Lemma save_facts s w d nd w1 s' w2 g ops s2 w3 nd2 w4 : reached hash W b s w d -> Node s w = (Ok nd, w1) -> NewHamtFromDag nd = Ok s' -> wext w1 w2 -> named_ops ops -> (forall op, In op ops -> hname op <> None) ->
    snd (hrun hash ops (s', with_faults g w2)) = (s2, w3) -> Node s2 w3 = (Ok nd2, w4) ->
    (exists added, w_added w4 = w_added w2 ++ added /\
      forall m o, In (m, o) added -> m = nd2 \/ on_paths hash W (names_of ops) nd2 m \/ exists op, In op ops /\ given op = Some m) /\
    (exists ms, (forall m, on_paths hash W (names_of ops) nd2 m <-> In m ms) /\ Z.of_nat (length ms) * Z.log2 W <= Z.of_nat (length ops) * (8 * Z.of_nat n - Z.log2 W)) /\
    (forall k m, on_path hash W k 0 nd m -> ~ on_paths hash W (names_of ops) nd m -> on_path hash W k 0 nd2 m).
  Proof.
    intros HR E El Hx HF HN Er En. destruct (saved_below hash n W b Hn Hh Hv s w d nd w1 HR E) as (lg & kids & H1 & H2 & H3 & H4 & H5 & H6 & Hw & Hd & Hs).
    destruct (load_ser hash _ lg W _ H1 H2 H3 (fun m => stored w1 m = true) kids 0 nd Hw Hs H4) as (ds & El' & Hr & _). rewrite El in El'. injection El' as <-.
    assert (HS : forall m, stored w1 m = true -> stored (with_faults g w2) m = true) by (intros m Hm; exact (wext_stored w1 w2 m Hx Hm)).
    set (K := names_of ops).
    assert (F0 : few hash lg W K 0 s').
    { apply (few_links hash _ lg W H1 H2 H3 K 0 s' kids); [apply Hr|exact Hw|destruct Hr as (_ & _ & _ & _ & HF2); exact (forall2_length _ _ _ HF2)|exact (load_links nd s' El)]. }
    assert (Hops : Forall (fun op => exists k, hname op = Some k /\ k <> [] /\ K k) ops).
    { apply Forall_forall. intros op Ho. specialize (HN op Ho). unfold named_ops in HF. rewrite Forall_forall in HF. specialize (HF op Ho). destruct (hname op) as [k|] eqn:Ek; [|congruence]. exists k. split; [reflexivity|]. split; [intros ->; now apply HF|]. exists op. auto. }
    pose proof (run_few hash _ lg W (eq (proto_prefix b)) H1 H2 H3 H4 H5 (fun m => stored w1 m = true) K ops d (s', with_faults g w2) ltac:(split; [exact HS|exists kids; auto]) F0 Hops) as T.
    cbv zeta in T. rewrite Er in T. cbn [fst snd] in T. destruct T as ((d' & (HU & kids' & Hr' & Hw' & Hd') & HD) & F2 & a1 & A1 & A2). cbn [fst snd] in *.
    destruct (node_adds hash _ lg W _ H1 H2 H3 _ _ kids' eq_refl K 0 s2 w3 nd2 w4 Hr' Hw' F2 En) as (a2 & B1 & B2).
    destruct (node_spec hash _ lg W _ H1 H2 H3 _ kids' 0 s2 w3 Hr' Hw' HU) as (r4 & w4' & En' & _ & Hp). rewrite En in En'. injection En' as <- <-. destruct Hp as [((nd' & E' & Hs') & _)|[E' _]]; [|discriminate]. injection E' as <-. unfold stored_all in Hs'.
    split; [|split].
    - exists (a1 ++ a2). split; [rewrite B1, A1; now rewrite app_assoc|]. rewrite Forall_forall in A2, B2. intros m o Hm. apply in_app_iff in Hm as [Hm|Hm].
      + right. right. exact (A2 _ Hm).
      + destruct (B2 _ Hm) as [Hx2|Hx2]; [left; exact Hx2|right; left; exact Hx2].
    - destruct (pad_digits lg W H1 H2) as [_ Elg]. rewrite Elg. unfold K. clear - HN H1 H2 H3 H4 H5 Hw' Hs'. induction ops as [|op ops IH].
      + exists []. split; [|cbn [length]; lia]. intros m. split; [intros (k & (op & [] & _) & _)|intros []].
      + destruct IH as (ms & M1 & M2); [intros; apply HN; now right|]. destruct (hname op) as [k|] eqn:Ek; [|exfalso; apply (HN op); [now left|exact Ek]].
        destruct (path_blocks hash _ lg W _ H1 H2 H3 H4 H5 _ k _ 0 kids' nd2 (Nat.lt_succ_diag_r _) ltac:(lia) Hw' Hs') as (ms1 & N1 & N2). exists (ms1 ++ ms). split.
        * intros m. rewrite in_app_iff, <- N1, <- M1. split.
          -- intros (k1 & (o & [<-|Ho] & Hk1) & Hp); [left; congruence|right]. exists k1. split; [exists o; auto|exact Hp].
          -- intros [Hp|(k1 & (o & Ho & Hk1) & Hp)]; [exists k; split; [exists op; split; [now left|exact Ek]|exact Hp]|exists k1; split; [exists o; split; [now right|exact Hk1]|exact Hp]].
        * rewrite app_length. cbn [length]. lia.
    - intros k m Ho HNo. apply (shared hash _ lg W _ H1 H2 H3 H4 ltac:(congruence) _ _ k 0 nd m Ho K kids kids' nd2 Hw Hw' Hs Hs').
      + intros k1 e NK. rewrite (Hd k1 e), (Hd' k1 e), (HD k1 NK). reflexivity.
      + intros k1 Kk Ok1. apply HNo. exists k1. auto.
  Qed.

  Lemma saved_shared (K : bytes -> Prop) s w d nd w1 s' w' d' nd' w1' k m : reached hash W b s w d -> Node s w = (Ok nd, w1) -> reached hash W b s' w' d' -> Node s' w' = (Ok nd', w1') ->
    (forall k1, ~ K k1 -> d k1 = d' k1) -> on_path hash W k 0 nd m -> ~ on_paths hash W K nd m -> on_path hash W k 0 nd' m.
  Proof.
    intros HR E HR' E' HK Ho HN. destruct (saved_below hash n W b Hn Hh Hv s w d nd w1 HR E) as (lg & kids & H1 & H2 & H3 & H4 & H5 & H6 & Hw & Hd & Hs).
    destruct (saved_below hash n W b Hn Hh Hv s' w' d' nd' w1' HR' E') as (lg' & kids' & _ & H2' & _ & _ & _ & _ & Hw' & Hd' & Hs'). rewrite H2 in H2'. injection H2' as <-.
    apply (shared hash _ lg W _ H1 H2 H3 H4 ltac:(congruence) _ _ k 0 nd m Ho K kids kids' nd' Hw Hw' Hs Hs').
    - intros k1 e NK. specialize (HK k1 NK). unfold holds in Hd, Hd'. rewrite (Hd k1 e), (Hd' k1 e), HK. reflexivity.
    - intros k1 Kk Ok1. apply HN. exists k1. auto.
  Qed.
End Facts.
