(** The sharded directory as a map: one lemma per operation, for use in proofs about its
    clients. *)
From Verif Require Import Base Pb PbProofs FSNode FSNodeProofs Dag DagProofs Builder HashBits Bitfield SpecHash HashProofs Hamt SpecHamt HamtExec HamtRep HamtNode HamtRun HamtFacts Walk WalkProofs WalkDir.

Section Abs.
  Variables (hash : bytes -> bytes) (n : nat) (W : Z) (P : prefix -> Prop).
  Hypothesis Hn : (2 <= n)%nat.
  Hypothesis Hh : forall k, length (hash k) = n.
  Hypothesis HP : forall p, P p -> p = proto_prefix (Some p).

  (** The shard has the contents [d]. *)
  Definition good (d : dir) (s : shard) (w : world) : Prop :=
    exists lg U, 3 <= lg <= 10 /\ Logtwo W = Ok lg /\ inv hash (8 * Z.of_nat n) lg W P U d (s, w).
  Definition fails (w : world) : Prop := exists x, w_getok w x = false.

  Lemma hash_len k : 8 * zlen (hash k) = 8 * Z.of_nat n.
  Proof. unfold zlen. now rewrite Hh. Qed.
  Lemma lg_use lg : 3 <= lg <= 10 -> Logtwo W = Ok lg -> lg <= 8 * Z.of_nat n /\ usable n W = 8 * Z.of_nat n / lg * lg.
  Proof. intros H1 H2. split; [lia|]. unfold usable. apply Logtwo_ok in H2 as [H2 ->]. now rewrite Z.log2_pow2. Qed.
  Lemma missing_fails U w : missing U w -> fails w.
  Proof. intros (x & _ & H). now exists x. Qed.

  Lemma good_world d s w w' : good d s w -> wext w w' -> good d s w'.
  Proof. intros (lg & U & H1 & H2 & H3) Hx. exists lg, U. split; [assumption|]. split; [assumption|]. eapply inv_world; eauto. Qed.
  Lemma good_deq d d' s w : good d s w -> deq d d' -> good d' s w.
  Proof. intros (lg & U & H1 & H2 & H3) Hx. exists lg, U. split; [assumption|]. split; [assumption|]. eapply inv_dir; eauto. Qed.
  Lemma good_new b s w : valid_width W -> P (proto_prefix b) -> new_dir W b = Ok s -> good dempty s w.
  Proof.
    intros Hv Hb E. destruct (proj1 (valid_lg W) Hv) as (lg & H1 & H2 & _). exists lg, (fun _ => False). split; [assumption|]. split; [assumption|].
    apply (inv_new hash _ lg W P H1 H2 hash_len (proj1 (lg_use lg H1 H2)) b s w Hb E).
  Qed.
  Lemma good_builder d s w : good d s w -> P (proto_prefix (s_builder s)).
  Proof. intros (lg & U & H1 & H2 & _ & kids & (_ & _ & H & _) & _). exact H. Qed.
  Lemma good_facts d s w : good d s w -> facts d s w.
  Proof. intros (lg & U & H1 & H2 & H3). exact (inv_facts hash _ lg W P H1 H2 hash_len HP U d s w H3). Qed.

  Lemma good_prefixed d s w k l : good d s w -> prefixed W k (Some (mkLink (linkNamePrefix s 0 ++ k) (lsize l) (lto l))).
  Proof. intros (lg & U & H1 & H2 & H3). eapply setlink_prefixed; first [exact H1|exact H2|exact hash_len|exact H3]. Qed.
  Lemma good_swapValue d s w k value : good d s w -> k <> [] -> prefixed W k value ->
    let (r, s') := swapValue hash (hfuel hash k) w (newHashBits hash k) k value s in
    match r with
    | Ok old => option_map lentry old = d k /\ good (dput d k (option_map lentry value)) s' w /\ (value = None -> d k <> None) /\ prefixed W k old
    | Err e => good d s' w /\
        (e = ENotExist /\ value = None /\ d k = None \/ e = ETooDeep /\ value <> None /\ too_deep hash (usable n W) d k \/ e = EFetch /\ fails w)
    | _ => False
    end.
  Proof.
    intros (lg & U & H1 & H2 & H3) Hk Hpv. destruct (lg_use lg H1 H2) as [H5 H6].
    pose proof (swap_dir hash (8 * Z.of_nat n) lg W P H1 H2 hash_len HP H5 U d s w k value H3 Hk Hpv) as S1. destruct (swapValue _ _ _ _ _ _ _) as [r s'].
    destruct r as [old|e| |]; try contradiction.
    - destruct S1 as (S1 & S2 & S3 & S4). split; [assumption|]. split; [exists lg, U; auto|]. split; [|exact S4]. intros ->. exact S3.
    - destruct S1 as [S1 S2]. split; [exists lg, U; auto|]. rewrite H6. destruct S2 as [S2|[S2|[-> S2]]]; [now left|right; now left|]. right. right. split; [reflexivity|]. eapply missing_fails; eauto.
  Qed.
  Lemma good_setlink d s w k l : good d s w -> k <> [] ->
    let (r, s') := SetLink hash w k l s in
    match r with
    | Ok _ => good (dput d k (Some (lentry l))) s' w
    | Err e => good d s' w /\ (e = ETooDeep /\ too_deep hash (usable n W) d k \/ e = EFetch /\ fails w)
    | _ => False
    end.
  Proof.
    intros Hg Hk. unfold SetLink, bind, get_shard. pose proof (good_swapValue d s w k (Some (mkLink (linkNamePrefix s 0 ++ k) (lsize l) (lto l))) Hg Hk (good_prefixed _ _ _ k l Hg)) as S1.
    destruct (swapValue _ _ _ _ _ _ _) as [r s']. destruct r as [old|e| |]; try contradiction; cbn [ret].
    - exact (proj1 (proj2 S1)).
    - destruct S1 as [S1 [(_ & E & _)|[(-> & _ & S2)|S2]]]; [discriminate| |]; split; auto.
  Qed.
  Lemma good_take d s w k : good d s w -> k <> [] ->
    let (r, s') := Take hash w k s in
    match r with
    | Ok old => option_map lentry old = d k /\ d k <> None /\ good (dput d k None) s' w /\ prefixed W k old
    | Err e => good d s' w /\ (e = ENotExist /\ d k = None \/ e = EFetch /\ fails w)
    | _ => False
    end.
  Proof.
    intros Hg Hk. unfold Take. pose proof (good_swapValue d s w k None Hg Hk I) as S1. destruct (swapValue _ _ _ _ _ _ _) as [r s']. destruct r as [old|e| |]; try contradiction.
    - destruct S1 as (S1 & S2 & S3 & S4). auto.
    - destruct S1 as [S1 [(-> & _ & E)|[(_ & E & _)|S2]]]; [|congruence|]; split; auto.
  Qed.
  Lemma good_find_named d s w k : good d s w -> k <> [] ->
    let (r, s') := Find hash w k s in
    good d s' w /\
    match r with
    | Ok (Some l) => d k = Some (lentry l) /\ labelled W k (lname l)
    | Err e => e = ENotExist /\ d k = None \/ e = EFetch /\ fails w
    | _ => False
    end.
  Proof.
    intros (lg & U & H1 & H2 & H3) Hk. destruct (lg_use lg H1 H2) as [H5 H6].
    pose proof (find_dir hash (8 * Z.of_nat n) lg W P H1 H2 hash_len HP H5 U d s w k H3 Hk) as S1. destruct (Find hash w k s) as [r s']. destruct S1 as [S1 S2].
    split; [exists lg, U; auto|]. destruct r as [[l|]|e| |]; try contradiction; [assumption|]. destruct S2 as [S2|[-> S2]]; [now left|]. right. split; [reflexivity|]. eapply missing_fails; eauto.
  Qed.
  Lemma good_find d s w k : good d s w -> k <> [] ->
    let (r, s') := Find hash w k s in
    good d s' w /\
    match r with
    | Ok (Some l) => d k = Some (lentry l)
    | Err e => e = ENotExist /\ d k = None \/ e = EFetch /\ fails w
    | _ => False
    end.
  Proof. intros Hg Hk. pose proof (good_find_named d s w k Hg Hk) as S1. destruct (Find hash w k s) as [r s']. destruct S1 as [S1 S2]. split; [exact S1|]. destruct r as [[l|]|e| |]; try contradiction; [apply S2|exact S2]. Qed.
  Lemma good_each d s w cb : good d s w -> exists es, listing d es /\
    let '(r, (s', acc)) := ForEachLink w cb (s, []) in
    good d s' w /\
    match r with
    | Ok _ => feed cb [] es = (None, acc)
    | Err e => feed cb [] es = (Some e, acc) \/ (e = EFetch /\ fails w /\ exists es1 es2, es = es1 ++ es2 /\ feed cb [] es1 = (None, acc))
    | _ => False
    end.
  Proof.
    intros (lg & U & H1 & H2 & H3).
    destruct (each_dir hash (8 * Z.of_nat n) lg W P H1 H2 hash_len HP U d s w cb H3) as (es & Hl & S1). exists es. split; [assumption|].
    destruct (ForEachLink w cb (s, [])) as [r [s' acc]]. destruct S1 as [S1 S2]. split; [exists lg, U; auto|].
    destruct r as [u|e| |]; try contradiction; [assumption|]. destruct S2 as [S2|(E & Hm & S2)]; [now left|]. right. split; [assumption|]. split; [eapply missing_fails; eauto|assumption].
  Qed.
  (** Saving, and loading the node saved. *)
  Lemma good_node d s w : good d s w ->
    let (r, w') := Node s w in
    wext w w' /\
    match r with
    | Ok nd => stored w' nd = true /\ all_added w w' /\ seal nd = nd /\ exists p b ls fsn s', nd = NProto p b ls /\ FSNodeFromBytes b = Ok fsn /\ getType fsn = THAMTShard /\ NewHamtFromDag nd = Ok s' /\ good d s' w'
    | Err e => e = EAdd /\ add_failed w w'
    | _ => False
    end.
  Proof.
    intros (lg & U & H1 & H2 & H3).
    destruct (node_dir hash (8 * Z.of_nat n) lg W P H1 H2 hash_len U d s w H3) as (kids & Hr & Hw & Hd & r & w' & E & X & Hp). rewrite E. split; [exact X|]. destruct Hp as [((nd & -> & Hs) & Ha)|[-> Hf]]; [|auto].
    split; [exact (ser_U lg W P H1 _ _ _ Hs)|]. split; [exact Ha|].
    destruct (load_ser hash (8 * Z.of_nat n) lg W P H1 H2 hash_len (fun n => stored w' n = true) kids 0 nd Hw Hs HP) as (ds & El & Hr' & _).
    split; [exact (ser_sorted hash (8 * Z.of_nat n) lg W P H1 H2 hash_len _ 0 kids nd Hw Hs)|].
    apply (ser_branch lg W P H1) in Hs as (p & ls & -> & _). do 3 eexists. pose proof El as El'. unfold NewHamtFromDag in El'. destruct (FSNodeFromBytes _) as [fsn| | |] eqn:Ef; try discriminate. cbn [rbind] in El'.
    destruct (getType fsn =? THAMTShard) eqn:Et; [|discriminate]. exists fsn, ds. split; [reflexivity|]. split; [exact Ef|]. split; [now apply Z.eqb_eq|]. split; [exact El|].
    exists lg, (fun n => stored w' n = true). split; [assumption|]. split; [assumption|]. split; [auto|]. exists kids. auto.
  Qed.
  Lemma good_node_eq d s1 w1 s2 w2 n1 n2 w1' w2' : (forall p q, P p -> P q -> p = q) -> good d s1 w1 -> good d s2 w2 -> Node s1 w1 = (Ok n1, w1') -> Node s2 w2 = (Ok n2, w2') -> n1 = n2.
  Proof.
    intros HPP (lg & U & H1 & H2 & H3) (lg' & V & _ & H2' & H4). assert (lg' = lg) by congruence. subst lg'.
    apply (inv_node_eq hash (8 * Z.of_nat n) lg W P H1 H2 hash_len U V d s1 w1 s2 w2 n1 n2 w1' w2' HPP H3 H4).
  Qed.
  Lemma good_swap d s w k nd : good d s w -> k <> [] ->
    let '(r, (s', w')) := Swap hash k nd (s, w) in
    wext w w' /\
    match r with
    | Ok old => all_added w w' /\ option_map lentry old = d k /\ good (dput d k (Some (node_entry nd))) s' w' /\ prefixed W k old
    | Err e => good d s' w' /\ (e = EAdd /\ add_failed w w' \/ all_added w w' /\ (e = ETooDeep /\ too_deep hash (usable n W) d k \/ e = EFetch /\ fails w))
    | _ => False
    end.
  Proof.
    intros Hg Hk. unfold Swap. destruct (dserv_add_spec nd None w) as (ra & w1 & Ea & Xa & Ca & Ha). rewrite Ea. destruct Ha as [(-> & _ & Fa)|[-> Fa]].
    - pose proof (good_swapValue d s w1 k (Some (make_link (linkNamePrefix s 0 ++ k) nd)) (good_world _ _ _ _ Hg Xa) Hk (good_prefixed _ _ _ k (make_link [] nd) (good_world _ _ _ _ Hg Xa))) as S1. destruct (swapValue _ _ _ _ _ _ _) as [r s'].
      assert (Hall : all_added w w1) by now apply all_added_one. split; [assumption|]. destruct r as [old|e| |]; try contradiction.
      + split; [assumption|]. split; [apply S1|]. split; [exact (proj1 (proj2 S1))|apply S1].
      + destruct S1 as [S1 [(_ & E & _)|[(-> & _ & S2)|[-> [m S2]]]]]; [discriminate| |]; (split; [assumption|right; split; [assumption|]]); [now left|].
        right. split; [reflexivity|]. exists m. destruct Xa as (_ & _ & E & _). now rewrite <- E.
    - split; [assumption|]. split; [eapply good_world; eauto|]. left. split; [reflexivity|]. exists (w_calls w). split; [lia|assumption].
  Qed.
End Abs.
