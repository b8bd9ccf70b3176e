(** Histories of operations refine the specification. *)
From Coq Require Import Sorting.Sorted Sorting.Permutation.
From Verif Require Import Base Pb PbProofs FSNode FSNodeProofs Dag DagProofs Builder HashBits Bitfield SpecHash HashProofs Hamt SpecHamt HamtExec HamtRep HamtNode.

(** ** Collisions *)

Lemma bits_value_app_inj {A} (a : list A) : forall a' b b', length a = length a' -> a ++ b = a' ++ b' -> a = a' /\ b = b'.
Proof.
  induction a as [|x a IH]; intros [|x' a'] b b' Hl H; try discriminate; cbn in *; [auto|]. injection H as -> H. injection Hl as Hl. destruct (IH _ _ _ Hl H) as [-> ->]. auto.
Qed.
Lemma bits_value_snoc l b : bits_value (l ++ [b]) = 2 * bits_value l + (if b then 1 else 0).
Proof. unfold bits_value. now rewrite fold_left_app. Qed.
Lemma bits_value_inj l : forall l', length l = length l' -> bits_value l = bits_value l' -> l = l'.
Proof.
  induction l as [|x l IH] using rev_ind; intros l' Hl E; [destruct l'; [reflexivity|discriminate]|].
  destruct (exists_last (l := l')) as (m & y & ->); [intros ->; rewrite app_length in Hl; cbn in Hl; lia|]. rewrite !app_length in Hl. cbn in Hl. rewrite !bits_value_snoc in E.
  assert (x = y) by (destruct x, y; try reflexivity; lia). subst y. f_equal. apply IH; [lia|]. lia.
Qed.
Lemma all_bits_len h : zlen (all_bits h) = 8 * zlen h.
Proof. unfold all_bits. induction h as [|b h IH]; [reflexivity|]. cbn [flat_map]. rewrite zlen_app, zlen_cons, IH. change (zlen (byte_bits b)) with 8. lia. Qed.

Lemma firstn_split {A} n m (l : list A) : firstn (n + m) l = firstn n l ++ firstn m (skipn n l).
Proof. revert l. induction n as [|n IH]; intros l; [reflexivity|]. destruct l as [|x l]; [now rewrite !firstn_nil|]. cbn. f_equal. apply IH. Qed.
Lemma firstn_groups (lg : nat) n : forall (a b : list bool), (forall j, (j < n)%nat -> firstn lg (skipn (j * lg) a) = firstn lg (skipn (j * lg) b)) <-> firstn (n * lg) a = firstn (n * lg) b.
Proof.
  induction n as [|n IH]; intros a b.
  - split; [reflexivity|]. intros _ j Hj. lia.
  - replace (S n * lg)%nat with (n * lg + lg)%nat by lia. rewrite !firstn_split. split.
    + intros H. f_equal; [apply IH; intros j Hj; apply H; lia|apply H; lia].
    + intros H j Hj.
      assert (E : firstn (n * lg) a = firstn (n * lg) b /\ firstn lg (skipn (n * lg) a) = firstn lg (skipn (n * lg) b)).
      { assert (D : length (firstn (n * lg) a) = length (firstn (n * lg) b) \/ (length a < n * lg)%nat \/ (length b < n * lg)%nat) by (rewrite !firstn_length; lia).
        destruct D as [D|D]; [now apply bits_value_app_inj|].
        assert (length (firstn (n * lg) a ++ firstn lg (skipn (n * lg) a)) = length (firstn (n * lg) b ++ firstn lg (skipn (n * lg) b))) as D2 by (now rewrite H).
        rewrite !app_length, !firstn_length, !skipn_length in D2. assert (length (firstn (n * lg) a) = length (firstn (n * lg) b)) by (rewrite !firstn_length; lia). now apply bits_value_app_inj. }
      destruct E as [E1 E2]. destruct (Nat.eq_dec j n) as [->|Hne]; [assumption|]. apply IH; [assumption|lia].
Qed.

Section Run.
  Variables (hash : bytes -> bytes) (L lg W : Z) (P : prefix -> Prop).
  Hypothesis Hlg : 3 <= lg <= 10.
  Hypothesis HW : Logtwo W = Ok lg.
  Hypothesis Hhash : forall k, 8 * zlen (hash k) = L.
  Hypothesis HP : forall p, P p -> p = proto_prefix (Some p).
  Hypothesis HL : lg <= L.
  Notation wfk := (wfk hash L lg).
  Notation reps := (reps W P).
  Notation ser := (ser W P).

  Lemma agree_collide k k' : agree hash L lg 0 k k' <-> collide hash (L / lg * lg) k k'.
  Proof.
    unfold agree, collide, slot_of, bits_at. set (n := Z.to_nat (L / lg)). set (m := Z.to_nat lg). pose proof (Z.div_mod L lg ltac:(lia)). pose proof (Z.mod_pos_bound L lg ltac:(lia)).
    assert (0 <= L / lg) by (apply Z.div_pos; lia).
    replace (Z.to_nat (L / lg * lg)) with (n * m)%nat by (unfold n, m; rewrite Z2Nat.inj_mul by lia; reflexivity). rewrite <- firstn_groups. split.
    - intros Ha j Hj. apply bits_value_inj.
      + rewrite !firstn_length, !skipn_length. pose proof (all_bits_len (hash k)) as H2. pose proof (all_bits_len (hash k')) as H3. rewrite Hhash in H2, H3. unfold zlen in H2, H3. lia.
      + specialize (Ha (Z.of_nat j) ltac:(lia)). assert ((Z.of_nat j + 1) * lg <= L).
        { assert (Z.of_nat j + 1 <= L / lg) by lia. apply Z.le_trans with (L / lg * lg); [|lia]. apply Z.mul_le_mono_nonneg_r; lia. }
        specialize (Ha ltac:(lia)). replace (Z.to_nat (0 + Z.of_nat j * lg)) with (j * m)%nat in Ha by (rewrite Z.add_0_l, Z2Nat.inj_mul by lia; rewrite Nat2Z.id; reflexivity). exact Ha.
    - intros Hc j Hj Hle. assert (j < L / lg). { destruct (Z_lt_ge_dec j (L / lg)); [assumption|]. assert (L / lg * lg <= j * lg) by (apply Z.mul_le_mono_nonneg_r; lia). lia. }
      replace (Z.to_nat (0 + j * lg)) with (Z.to_nat j * m)%nat by (rewrite Z.add_0_l, Z2Nat.inj_mul by lia; reflexivity). f_equal. apply Hc. unfold n. lia.
  Qed.

  (** *** Contents of a trie *)

  Definition holds (d : dir) (kids : list (Z * trie)) : Prop := forall k e, In (k, e) (entriesk kids) <-> d k = Some e.
  Lemma holds_in d kids k : holds d kids -> (In k (keysk kids) <-> d k <> None).
  Proof.
    intros H. unfold keysk. rewrite in_map_iff. split.
    - intros ([k' e] & E & Hi). cbn in E. subst k'. apply H in Hi. congruence.
    - intros Hn. destruct (d k) as [e|] eqn:E; [|congruence]. exists (k, e). split; [reflexivity|]. now apply H.
  Qed.
  Lemma holds_ext d d' kids : holds d kids -> deq d d' -> holds d' kids.
  Proof. intros H E k e. rewrite <- E. apply H. Qed.
  Lemma bytes_eqb_dec (a b : bytes) : {a = b} + {a <> b}.
  Proof. destruct (bytes_eqb a b) eqn:E; [left; now apply bytes_eqb_eq|right]. intros ->. now rewrite bytes_eqb_refl in E. Qed.
  Lemma dput_same d k v : dput d k v k = v.
  Proof. unfold dput. now rewrite bytes_eqb_refl. Qed.
  Lemma dput_other d k v x : x <> k -> dput d k v x = d x.
  Proof. intros H. unfold dput. destruct (bytes_eqb x k) eqn:E; [apply bytes_eqb_eq in E; congruence|reflexivity]. Qed.

  Lemma upd_holds d kids kids' k v o c : holds d kids -> wfk c kids -> wfk c kids' -> upd k v o (entriesk kids) (entriesk kids') -> holds (dput d k v) kids' /\ d k = o.
  Proof.
    intros H Hw Hw' Hu. pose proof (wfk_nodup hash L lg W Hlg HW Hhash _ _ Hw) as N1. pose proof (wfk_nodup hash L lg W Hlg HW Hhash _ _ Hw') as N2. unfold keysk in *.
    destruct o as [o|], v as [v|]; cbn [upd] in Hu; try contradiction.
    - destruct Hu as (r & P1 & P2).
      pose proof (Permutation_NoDup (Permutation_map fst P1) N1) as M1. cbn in M1. inversion M1 as [|? ? M1a M1b]; subst.
      split; [|apply H; eapply Permutation_in; [symmetry; exact P1|now left]].
      intros x e. destruct (bytes_eqb_dec x k) as [->|Hne].
      + rewrite dput_same. split.
        * intros Hi. apply (Permutation_in _ P2) in Hi as [Hi|Hi]; [congruence|]. exfalso. apply M1a. apply in_map_iff. exists (k, e). auto.
        * intros E. injection E as ->. eapply Permutation_in; [symmetry; exact P2|now left].
      + rewrite dput_other by assumption. rewrite <- (H x e). split; intros Hi.
        * apply (Permutation_in _ P2) in Hi as [Hi|Hi]; [congruence|]. eapply Permutation_in; [symmetry; exact P1|now right].
        * apply (Permutation_in _ P1) in Hi as [Hi|Hi]; [congruence|]. eapply Permutation_in; [symmetry; exact P2|now right].
    - pose proof (Permutation_NoDup (Permutation_map fst Hu) N1) as M1. cbn in M1. inversion M1 as [|? ? M1a M1b]; subst.
      split; [|apply H; eapply Permutation_in; [symmetry; exact Hu|now left]].
      intros x e. destruct (bytes_eqb_dec x k) as [->|Hne].
      + rewrite dput_same. split; [|discriminate]. intros Hi. exfalso. apply M1a. apply in_map_iff. exists (k, e). auto.
      + rewrite dput_other by assumption. rewrite <- (H x e). split; intros Hi.
        * eapply Permutation_in; [symmetry; exact Hu|now right].
        * apply (Permutation_in _ Hu) in Hi as [Hi|Hi]; [congruence|assumption].
    - destruct Hu as [Hn P2]. assert (Hk : d k = None).
      { destruct (d k) as [e|] eqn:E; [|reflexivity]. exfalso. apply Hn. apply in_map_iff. exists (k, e). split; [reflexivity|]. now apply H. }
      split; [|assumption]. intros x e. destruct (bytes_eqb_dec x k) as [->|Hne].
      + rewrite dput_same. split.
        * intros Hi. apply (Permutation_in _ P2) in Hi as [Hi|Hi]; [congruence|]. apply H in Hi. congruence.
        * intros E. injection E as ->. eapply Permutation_in; [symmetry; exact P2|now left].
      + rewrite dput_other by assumption. rewrite <- (H x e). split; intros Hi.
        * apply (Permutation_in _ P2) in Hi as [Hi|Hi]; [congruence|assumption].
        * eapply Permutation_in; [symmetry; exact P2|now right].
  Qed.

  Notation too_deep := (too_deep hash (L / lg * lg)).
  Lemma too_deep_not d kids kids' k v c : c = 0 -> holds d kids -> wfk c kids' -> holds (dput d k (Some v)) kids' -> ~ too_deep d k.
  Proof.
    intros -> H Hw H' [Hn (k' & Hne & Hd & Hc)]. apply agree_collide in Hc. revert Hc. apply (wfk_disagree hash L lg Hlg Hhash 0 kids' k k'); [congruence|assumption| |].
    - apply (holds_in _ _ _ H'). now rewrite dput_same.
    - apply (holds_in _ _ _ H'). now rewrite dput_other.
  Qed.

  (** *** One operation *)

  (** [U]: which blocks may be unloaded. *)
  Definition inv (U : node -> Prop) (d : dir) (sw : shard * world) : Prop :=
    (forall n, U n -> stored (snd sw) n = true) /\ exists kids, reps U (fst sw) kids /\ wfk 0 kids /\ holds d kids.

  Lemma fetch_missing (U : node -> Prop) w : (forall n, U n -> stored w n = true) -> fetch_fails U w -> exists n, U n /\ w_getok w n = false.
  Proof.
    intros HU (n & Hn & H). exists n. split; [assumption|]. unfold dserv_get in H. rewrite HU in H by assumption. cbn in H. destruct (w_getok w n); [congruence|reflexivity].
  Qed.

  Definition missing (U : node -> Prop) (w : world) : Prop := exists n, U n /\ w_getok w n = false.

  (** Result of a swap in terms of the map. *)
  Lemma swap_dir U d s w k value : inv U d (s, w) -> k <> [] -> prefixed W k value ->
    let (r, s') := swapValue hash (hfuel hash k) w (newHashBits hash k) k value s in
    match r with
    | Ok old => option_map lentry old = d k /\ inv U (dput d k (option_map lentry value)) (s', w) /\
        match value with Some _ => ~ too_deep d k | None => d k <> None end /\ prefixed W k old
    | Err e => inv U d (s', w) /\
        (e = ENotExist /\ value = None /\ d k = None \/ e = ETooDeep /\ value <> None /\ too_deep d k \/ e = EFetch /\ missing U w)
    | _ => False
    end.
  Proof.
    intros (HU & kids & Hr & Hw & Hd) Hk Hpv. cbn [fst snd] in *. unfold newHashBits.
    pose proof (swap_spec hash L lg W P Hlg HW Hhash U HP (hfuel hash k) w 0 s kids k value) as S1. specialize (S1 ltac:(unfold hfuel; pose proof (Hhash k); unfold zlen in *; lia) ltac:(lia) Hr Hw Hk Hpv).
    destruct (swapValue _ _ _ _ _ _ _) as [r s']. cbn [fst snd] in S1. destruct S1 as (kids' & Hr' & Hw' & S1). change (option_map content value) with (option_map lentry value) in S1.
    destruct r as [old|e| |]; try contradiction.
    - destruct S1 as (o & [Ho Hpo] & Hu). destruct (upd_holds _ _ _ _ _ _ _ Hd Hw Hw' Hu) as [Hd' Hk']. split; [|split; [|split; [|exact Hpo]]].
      + rewrite Hk'. exact Ho.
      + split; [assumption|]. exists kids'. auto.
      + destruct value as [v|]; cbn [option_map] in *.
        * eapply too_deep_not; [reflexivity|exact Hd|exact Hw'|exact Hd'].
        * destruct o; [congruence|contradiction].
    - destruct S1 as [-> S1]. split; [split; [assumption|]; exists kids; auto|].
      destruct S1 as [(-> & Hv & Hn)|[(-> & Hv & Hn & k' & Hi & Ha)|[-> Hf]]].
      + left. split; [reflexivity|]. split; [destruct value; [discriminate|reflexivity]|]. destruct (d k) eqn:E; [|reflexivity]. exfalso. apply Hn. apply (holds_in _ _ _ Hd). congruence.
      + right. left. split; [reflexivity|]. split; [destruct value; [discriminate|intros _; now apply Hv]|]. split.
        * destruct (d k) eqn:E; [|reflexivity]. exfalso. apply Hn. apply (holds_in _ _ _ Hd). congruence.
        * exists k'. split; [intros ->; contradiction|]. split; [now apply (holds_in _ _ _ Hd)|]. now apply agree_collide.
      + right. right. split; [reflexivity|]. now apply fetch_missing.
  Qed.

  Lemma setlink_prefixed U d s w k l : inv U d (s, w) -> prefixed W k (Some (mkLink (linkNamePrefix s 0 ++ k) (lsize l) (lto l))).
  Proof.
    intros (_ & kids & (_ & Hs & _) & _). cbn [fst] in Hs. cbn [prefixed lname]. apply labelled_pre. unfold linkNamePrefix, maxpadlen, pad. rewrite Hs.
    pose proof (W_bounds lg W Hlg HW). destruct (slot_names W 0 ltac:(lia)) as (_ & Hl & _). exact Hl.
  Qed.
  Lemma set_prefixed U d s w k n : inv U d (s, w) -> prefixed W k (Some (make_link (linkNamePrefix s 0 ++ k) n)).
  Proof. intros H. exact (setlink_prefixed U d s w k (make_link [] n) H). Qed.

  Lemma find_dir U d s w k : inv U d (s, w) -> k <> [] ->
    let (r, s') := Find hash w k s in
    inv U d (s', w) /\
    match r with
    | Ok (Some l) => d k = Some (lentry l) /\ labelled W k (lname l)
    | Err e => e = ENotExist /\ d k = None \/ e = EFetch /\ missing U w
    | _ => False
    end.
  Proof.
    intros (HU & kids & Hr & Hw & Hd) Hk. cbn [fst snd] in *. unfold Find, newHashBits.
    pose proof (find_spec hash L lg W P Hlg HW Hhash U HP (hfuel hash k) w 0 s kids k) as S1. specialize (S1 ltac:(unfold hfuel; pose proof (Hhash k); unfold zlen in *; lia) ltac:(lia) Hr Hw Hk).
    destruct (getValue _ _ _ _ _) as [r s']. cbn [fst snd] in S1. destruct S1 as [Hr' S1]. split; [split; [assumption|]; exists kids; auto|].
    destruct r as [[l|]|e| |]; try contradiction.
    - destruct S1 as [S1 S2]. split; [now apply Hd|exact S2].
    - destruct S1 as [[-> Hn]|[-> Hf]].
      + left. split; [reflexivity|]. destruct (d k) eqn:E; [|reflexivity]. exfalso. apply Hn. apply (holds_in _ _ _ Hd). congruence.
      + right. split; [reflexivity|]. now apply fetch_missing.
  Qed.

  Lemma each_dir U d s w cb : inv U d (s, w) -> exists es, listing d es /\
    let '(r, (s', acc)) := ForEachLink w cb (s, []) in
    inv U d (s', w) /\
    match r with
    | Ok _ => feed cb [] es = (None, acc)
    | Err e => feed cb [] es = (Some e, acc) \/ (e = EFetch /\ missing U w /\ exists es1 es2, es = es1 ++ es2 /\ feed cb [] es1 = (None, acc))
    | _ => False
    end.
  Proof.
    intros (HU & kids & Hr & Hw & Hd). cbn [fst snd] in *. exists (entriesk kids). split.
    - split; [exact (wfk_nodup hash L lg W Hlg HW Hhash _ _ Hw)|exact Hd].
    - pose proof (foreach_spec hash L lg W P Hlg HW Hhash HP U w cb 0 s kids [] Hr Hw) as S1. destruct (ForEachLink w cb (s, [])) as [r [s' acc]]. destruct S1 as [S1 S2].
      split; [split; [assumption|]; exists kids; auto|]. destruct r as [u|e| |]; try contradiction; [assumption|]. destruct S2 as [S2|(E & Hf & S2)]; [now left|]. right. split; [assumption|]. split; [now apply fetch_missing|assumption].
  Qed.

  Lemma feed_all es : forall acc, feed (fun _ _ => None) acc es = (None, rev (map plain es) ++ acc).
  Proof. induction es as [|e es IH]; intros acc; [reflexivity|]. cbn [feed map rev]. rewrite IH, <- app_assoc. reflexivity. Qed.
  Lemma named_plain es : map named (map plain es) = es.
  Proof. rewrite map_map. rewrite <- (map_id es) at 2. apply map_ext. intros [k [z n]]. reflexivity. Qed.

  Lemma node_dir U d s w : inv U d (s, w) -> exists kids, reps U s kids /\ wfk 0 kids /\ holds d kids /\
    exists r w', Node s w = (r, w') /\ node_post W P kids w r w'.
  Proof.
    intros (HU & kids & Hr & Hw & Hd). exists kids. split; [assumption|]. split; [assumption|]. split; [assumption|].
    apply (node_spec hash L lg W P Hlg HW Hhash U kids 0 s w Hr Hw HU).
  Qed.

  Lemma inv_world U d s w w' : inv U d (s, w) -> wext w w' -> inv U d (s, w').
  Proof. intros (HU & H) Hx. split; [|exact H]. cbn [snd] in *. intros n Hn. eapply wext_stored; eauto. Qed.
  Lemma inv_dir U d d' sw : inv U d sw -> deq d d' -> inv U d' sw.
  Proof. intros (HU & kids & H1 & H2 & H3) E. split; [assumption|]. exists kids. split; [assumption|]. split; [assumption|]. eapply holds_ext; eauto. Qed.

  Lemma failedb_spec w w' : (add_failed w w' -> add_failedb w w' = true) /\ (all_added w w' -> add_failedb w w' = false).
  Proof.
    unfold add_failedb, add_failed, all_added. split.
    - intros (n & Hn & E). apply existsb_exists. exists n. rewrite in_seq, E. split; [lia|reflexivity].
    - intros H. destruct (existsb _ _) eqn:E; [|reflexivity]. apply existsb_exists in E as (n & Hi & E). apply in_seq in Hi. rewrite H in E by lia. discriminate.
  Qed.
  Lemma failedb_same w : add_failedb w w = false.
  Proof. unfold add_failedb. now rewrite Nat.sub_diag. Qed.

  Notation allowed := (allowed hash (L / lg * lg)).

  (** The blocks that may be unloaded after an operation. *)
  Definition unloaded (U : node -> Prop) (op : hop) (w' : world) : node -> Prop :=
    if is_reload op then fun n => stored w' n = true else U.

  Lemma exec_ok U d sw op : inv U d sw -> hname op <> Some [] ->
    let '(r, sw') := hexec hash op sw in
    let o := mkObs op (add_failedb (snd sw) (snd sw')) r in
    wext (snd sw) (snd sw') /\ allowed (missing U (snd sw)) d o /\ (exists V, inv V (effect d o) sw' /\ (V = U \/ is_reload op = true /\ V = fun n => stored (snd sw') n = true)) .
  Proof.
    intros Hi Hn. destruct sw as [s w]. destruct op as [k n|k l|k n|k|k|k| | |]; cbn [hname] in Hn; try (assert (Hk : k <> []) by (intros ->; now apply Hn)); cbn [hexec].
    - (* Set *) unfold Set_, bind, Swap. destruct (dserv_add_spec n None w) as (ra & w1 & Ea & Xa & Ca & Ha). rewrite Ea. destruct Ha as [(-> & _ & Fa)|[-> Fa]].
      + pose proof (swap_dir U d s w1 k (Some (make_link (linkNamePrefix s 0 ++ k) n)) (inv_world _ _ _ _ _ Hi Xa) Hk (set_prefixed _ _ _ _ k n (inv_world _ _ _ _ _ Hi Xa))) as S1. destruct (swapValue _ _ _ _ _ _ _) as [r s'].
        assert (Ef : add_failedb w w1 = false) by (apply failedb_spec; now apply all_added_one).
        destruct r as [old|e| |]; try contradiction; cbn [rmap ret fst snd]; (split; [assumption|]).
        * destruct S1 as (S1 & S2 & S3 & _). split; [right; cbn [o_failed o_op o_res]; rewrite Ef; right; split; [assumption|reflexivity]|]. exists U. split; [|now left]. exact S2.
        * destruct S1 as [S1 S2]. split; [|exists U; split; [|now left]; exact S1]. destruct S2 as [(-> & E & _)|[(-> & _ & Ht)|[-> Hm]]]; [discriminate| |].
          -- right. cbn [o_failed o_op o_res]. rewrite Ef. left. auto.
          -- left. split; [|reflexivity]. destruct Hm as (m & H1 & H2). exists m. split; [assumption|]. destruct Xa as (_ & _ & E & _). now rewrite <- E.
      + cbn [rmap fst snd]. split; [assumption|]. split; [|exists U; split; [|now left]; now apply (inv_world _ _ _ w)].
        right. cbn [o_failed o_op o_res]. assert (Ef : add_failedb w w1 = true) by (apply failedb_spec; exists (w_calls w); split; [lia|assumption]). rewrite Ef. auto.
    - (* SetLink *) unfold SetLink, bind, get_shard. pose proof (swap_dir U d s w k (Some (mkLink (linkNamePrefix s 0 ++ k) (lsize l) (lto l))) Hi Hk (setlink_prefixed _ _ _ _ k l Hi)) as S1.
      destruct (swapValue _ _ _ _ _ _ _) as [r s']. destruct r as [old|e| |]; try contradiction; cbn [rmap ret fst snd]; (split; [apply wext_refl|]).
      + destruct S1 as (S1 & S2 & S3 & _). split; [right; cbn [o_failed o_op o_res]; rewrite failedb_same; right; split; [assumption|reflexivity]|]. exists U. split; [|now left]. exact S2.
      + destruct S1 as [S1 S2]. split; [|exists U; split; [|now left]; exact S1]. destruct S2 as [(-> & E & _)|[(-> & _ & Ht)|[-> Hm]]]; [discriminate| |].
        * right. cbn [o_failed o_op o_res]. rewrite failedb_same. left. auto.
        * left. auto.
    - (* Swap *) unfold Swap. destruct (dserv_add_spec n None w) as (ra & w1 & Ea & Xa & Ca & Ha). rewrite Ea. destruct Ha as [(-> & _ & Fa)|[-> Fa]].
      + pose proof (swap_dir U d s w1 k (Some (make_link (linkNamePrefix s 0 ++ k) n)) (inv_world _ _ _ _ _ Hi Xa) Hk (set_prefixed _ _ _ _ k n (inv_world _ _ _ _ _ Hi Xa))) as S1. destruct (swapValue _ _ _ _ _ _ _) as [r s'].
        assert (Ef : add_failedb w w1 = false) by (apply failedb_spec; now apply all_added_one).
        destruct r as [old|e| |]; try contradiction; cbn [rmap ret fst snd]; (split; [assumption|]).
        * destruct S1 as (S1 & S2 & S3 & _). split; [right; cbn [o_failed o_op o_res]; rewrite Ef; right; split; [assumption|now rewrite S1]|]. exists U. split; [|now left]. exact S2.
        * destruct S1 as [S1 S2]. split; [|exists U; split; [|now left]; exact S1]. destruct S2 as [(-> & E & _)|[(-> & _ & Ht)|[-> Hm]]]; [discriminate| |].
          -- right. cbn [o_failed o_op o_res]. rewrite Ef. left. auto.
          -- left. split; [|reflexivity]. destruct Hm as (m & H1 & H2). exists m. split; [assumption|]. destruct Xa as (_ & _ & E & _). now rewrite <- E.
      + cbn [rmap fst snd]. split; [assumption|]. split; [|exists U; split; [|now left]; now apply (inv_world _ _ _ w)].
        right. cbn [o_failed o_op o_res]. assert (Ef : add_failedb w w1 = true) by (apply failedb_spec; exists (w_calls w); split; [lia|assumption]). rewrite Ef. auto.
    - (* Remove *) unfold Remove, Take, bind. pose proof (swap_dir U d s w k None Hi Hk I) as S1.
      destruct (swapValue _ _ _ _ _ _ _) as [r s']. destruct r as [old|e| |]; try contradiction; cbn [rmap ret fst snd]; (split; [apply wext_refl|]).
      + destruct S1 as (S1 & S2 & S3 & _). split; [right; cbn [o_failed o_op o_res]; rewrite failedb_same; unfold remove_allowed; destruct (d k); [reflexivity|congruence]|]. exists U. split; [|now left]. exact S2.
      + destruct S1 as [S1 S2]. split; [|exists U; split; [|now left]; exact S1]. destruct S2 as [(-> & _ & E)|[(_ & E & _)|[-> Hm]]]; [|congruence|].
        * right. cbn [o_failed o_op o_res]. rewrite failedb_same. unfold remove_allowed. now rewrite E.
        * left. auto.
    - (* Take *) unfold Take. pose proof (swap_dir U d s w k None Hi Hk I) as S1.
      destruct (swapValue _ _ _ _ _ _ _) as [r s']. destruct r as [old|e| |]; try contradiction; cbn [rmap ret fst snd]; (split; [apply wext_refl|]).
      + destruct S1 as (S1 & S2 & S3 & _). split; [right; cbn [o_failed o_op o_res]; rewrite failedb_same; unfold remove_allowed; rewrite S1; destruct (d k); [reflexivity|congruence]|]. exists U. split; [|now left]. exact S2.
      + destruct S1 as [S1 S2]. split; [|exists U; split; [|now left]; exact S1]. destruct S2 as [(-> & _ & E)|[(_ & E & _)|[-> Hm]]]; [|congruence|].
        * right. cbn [o_failed o_op o_res]. rewrite failedb_same. unfold remove_allowed. now rewrite E.
        * left. auto.
    - (* Find *) pose proof (find_dir U d s w k Hi Hk) as S1. destruct (Find hash w k s) as [r s']. destruct S1 as [S1 S2]. cbn [fst snd]. split; [apply wext_refl|].
      destruct r as [[l|]|e| |]; try contradiction; (split; [|exists U; split; [|now left]; exact S1]).
      + right. cbn [o_failed o_op o_res]. rewrite failedb_same, (proj1 S2). reflexivity.
      + destruct S2 as [[-> E]|[-> Hm]].
        * right. cbn [o_failed o_op o_res]. now rewrite failedb_same, E.
        * left. auto.
    - (* Each *) destruct (each_dir U d s w (fun _ _ => None) Hi) as (es & Hl & S1). destruct (ForEachLink w _ (s, [])) as [r [s' acc]]. destruct S1 as [S1 S2]. cbn [fst snd]. split; [apply wext_refl|].
      rewrite feed_all in S2. destruct r as [u|e| |]; try contradiction; cbn [rmap]; (split; [|exists U; split; [|now left]; exact S1]).
      + right. cbn [o_failed o_op o_res]. rewrite failedb_same. exists es. split; [|assumption]. injection S2 as <-. rewrite app_nil_r, rev_involutive, named_plain. reflexivity.
      + destruct S2 as [S2|(-> & Hm & _)]; [discriminate|]. left. auto.
    - (* Node *) destruct (node_dir U d s w Hi) as (kids & Hr & Hw & Hd & r & w' & E & X & Hp). rewrite E. cbn [fst snd]. split; [assumption|]. split.
      + right. cbn [o_failed o_op o_res]. destruct Hp as [((nd & -> & _) & Ha)|[-> Hf]].
        * rewrite (proj2 (failedb_spec w w') Ha). cbn. eauto.
        * rewrite (proj1 (failedb_spec w w') Hf). auto.
      + exists U. split; [|now left]. unfold effect. cbn [o_res o_op]. destruct r; apply (inv_world _ _ _ w); assumption.
    - (* Reload *) destruct (node_dir U d s w Hi) as (kids & Hr & Hw & Hd & r & w' & E & X & Hp). rewrite E. destruct Hp as [((nd & -> & Hs) & Ha)|[-> Hf]].
      + destruct (load_ser hash L lg W P Hlg HW Hhash (fun n => stored w' n = true) kids 0 nd Hw Hs HP) as (ds & El & Hr' & _). rewrite El. cbn [fst snd]. split; [assumption|]. split.
        * right. cbn [o_failed o_op o_res]. rewrite (proj2 (failedb_spec w w') Ha). reflexivity.
        * eexists. split; [|right; split; [reflexivity|reflexivity]]. split; [auto|]. exists kids. auto.
      + cbn [fst snd]. split; [assumption|]. split.
        * right. cbn [o_failed o_op o_res]. rewrite (proj1 (failedb_spec w w') Hf). auto.
        * exists U. split; [|now left]. now apply (inv_world _ _ _ w).
  Qed.

  (** *** Histories *)

  Lemma allowed_weaken (M M' : Prop) d o : (M -> M') -> allowed M d o -> allowed M' d o.
  Proof. unfold SpecHamt.allowed. intros H [[H1 H2]|H1]; [left; auto|now right]. Qed.
  Lemma conforms_weaken (M M' : Prop) h : (M -> M') -> forall d, conforms hash (L / lg * lg) M d h -> conforms hash (L / lg * lg) M' d h.
  Proof. intros H. induction h as [|o h IH]; intros d; cbn [conforms]; [auto|]. intros [H1 H2]. split; [eapply allowed_weaken; eauto|auto]. Qed.

  (** General form: [M] holds whenever a block that may be unloaded cannot be fetched. *)
  Lemma run_ok ops : forall U d sw (M : Prop), inv U d sw -> Forall (fun op => hname op <> Some []) ops ->
    (missing U (snd sw) -> M) -> (existsb is_reload ops = true -> (exists n, w_getok (snd sw) n = false) -> M) ->
    let (h, sw') := hrun hash ops sw in
    conforms hash (L / lg * lg) M d h /\ wext (snd sw) (snd sw') /\ map o_op h = ops /\
    exists V, inv V (contents d h) sw' /\ (V = U \/ existsb is_reload ops = true).
  Proof.
    induction ops as [|op ops IH]; intros U d sw M Hi HF HM HR; cbn [hrun].
    - split; [exact I|]. split; [apply wext_refl|]. split; [reflexivity|]. exists U. auto.
    - inversion HF as [|? ? F1 F2]; subst. pose proof (exec_ok U d sw op Hi F1) as S1. destruct (hexec hash op sw) as [r sw1]. destruct S1 as (X1 & A1 & V & I1 & HV).
      cbn [existsb] in HR.
      assert (Eg : w_getok (snd sw1) = w_getok (snd sw)) by (destruct X1 as (_ & _ & E & _); exact E).
      specialize (IH V _ sw1 M I1 F2). destruct (hrun hash ops sw1) as [h sw2].
      destruct IH as (C2 & X2 & E2 & V2 & I2 & HV2).
      + destruct HV as [->|[Hr ->]].
        * intros (n & H1 & H2). apply HM. exists n. split; [assumption|]. now rewrite <- Eg.
        * intros (n & H1 & H2). apply HR; [now rewrite Hr|]. exists n. now rewrite <- Eg.
      + rewrite Eg. intros Hr. apply HR. rewrite Hr. apply orb_true_r.
      + cbn [fst snd conforms map o_op contents fold_left] in *. split; [split; [|exact C2]; eapply allowed_weaken; [|exact A1]; exact HM|].
        split; [now apply (wext_trans _ (snd sw1))|]. split; [now f_equal|]. exists V2. split; [exact I2|].
        destruct HV2 as [->|Hr]; [|right; cbn [existsb]; rewrite Hr; apply orb_true_r]. destruct HV as [->|[Hr _]]; [now left|]. right. cbn [existsb]. now rewrite Hr.
  Qed.

  Lemma inv_new b s w : P (proto_prefix b) -> new_dir W b = Ok s -> inv (fun _ => False) dempty (s, w).
  Proof.
    intros Hb E. unfold new_dir in E. destruct (NewShard W) as [s0| | |] eqn:En; try discriminate. injection E as <-. split; [intros n []|]. exists []. cbn [fst].
    split; [apply (reps_new hash L lg W P Hlg HW Hhash _ b Hb s0 En)|]. split; [|intros k e; cbn; split; [tauto|discriminate]].
    split; [lia|]. split; constructor.
  Qed.

  (** Serialised form depends only on the contents. *)
  Lemma inv_node_eq U V d s1 w1 s2 w2 n1 n2 w1' w2' : (forall p q, P p -> P q -> p = q) -> inv U d (s1, w1) -> inv V d (s2, w2) -> Node s1 w1 = (Ok n1, w1') -> Node s2 w2 = (Ok n2, w2') -> n1 = n2.
  Proof.
    intros HPP H1 H2 E1 E2. destruct (node_dir _ _ _ _ H1) as (k1 & _ & Hw1 & Hd1 & r1 & x1 & F1 & _ & G1). destruct (node_dir _ _ _ _ H2) as (k2 & _ & Hw2 & Hd2 & r2 & x2 & F2 & _ & G2).
    rewrite E1 in F1. rewrite E2 in F2. injection F1 as <- <-. injection F2 as <- <-. destruct G1 as [((m1 & G1 & T1) & _)|[G1 _]]; [|discriminate]. destruct G2 as [((m2 & G2 & T2) & _)|[G2 _]]; [|discriminate].
    assert (k1 = k2). { apply (wfk_unique hash L lg W Hlg HW Hhash 0); auto. intros [k e]. rewrite (Hd1 k e), (Hd2 k e). reflexivity. }
    subst k2. injection G1 as <-. injection G2 as <-. exact (ser_unique lg W P Hlg _ _ _ HPP n1 n2 T1 T2).
  Qed.
End Run.
