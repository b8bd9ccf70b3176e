(** Logical tries and their representation by shards. *)
From Coq Require Import Sorting.Sorted Sorting.Permutation.
From Verif Require Import Base Pb PbProofs FSNode FSNodeProofs Dag DagProofs Builder HashBits Bitfield SpecHash HashProofs Hamt.

(** Contents of an entry: recorded size and target. *)
Definition entry := (Z * node)%type.
Definition content (l : link) : entry := (lsize l, lto l).

Inductive trie := Leaf (k : bytes) (v : entry) | Branch (kids : list (Z * trie)).

Section TrieInd.
  Variable Pr : trie -> Prop.
  Hypothesis HL : forall k v, Pr (Leaf k v).
  Hypothesis HB : forall kids, Forall (fun x => Pr (snd x)) kids -> Pr (Branch kids).
  Fixpoint trie_ind' (t : trie) : Pr t :=
    match t with
    | Leaf k v => HL k v
    | Branch kids => HB kids ((fix go (l : list (Z * trie)) : Forall (fun x => Pr (snd x)) l :=
        match l with [] => Forall_nil _ | x :: r => Forall_cons x (trie_ind' (snd x)) (go r) end) kids)
    end.
End TrieInd.

Fixpoint entries (t : trie) : list (bytes * entry) :=
  match t with Leaf k v => [(k, v)] | Branch kids => flat_map (fun x => entries (snd x)) kids end.
Definition entriesk (kids : list (Z * trie)) := flat_map (fun x => entries (snd x)) kids.
Definition keys (t : trie) := map fst (entries t).
Definition keysk (kids : list (Z * trie)) := map fst (entriesk kids).
Definition tkey (t : trie) : bytes := match t with Leaf k _ => k | Branch _ => [] end.

Lemma entriesk_app a b : entriesk (a ++ b) = entriesk a ++ entriesk b.
Proof. apply flat_map_app. Qed.
Lemma entriesk_cons i t b : entriesk ((i, t) :: b) = entries t ++ entriesk b.
Proof. reflexivity. Qed.
Lemma keysk_app a b : keysk (a ++ b) = keysk a ++ keysk b.
Proof. unfold keysk. now rewrite entriesk_app, map_app. Qed.
Lemma keysk_cons i t b : keysk ((i, t) :: b) = keys t ++ keysk b.
Proof. unfold keysk. now rewrite entriesk_cons, map_app. Qed.

Lemma ssorted_app {A} (R : A -> A -> Prop) a x b : StronglySorted R (a ++ x :: b) ->
  Forall (fun y => R y x) a /\ Forall (R x) b /\ StronglySorted R (a ++ b).
Proof.
  induction a as [|y a IH]; cbn; intros H.
  - inversion H; subst. auto.
  - inversion H as [|? ? H1 H2]; subst. destruct (IH H1) as (I1 & I2 & I3). rewrite Forall_app in H2. destruct H2 as [H2 H3]. inversion H3; subst.
    split; [constructor; auto|]. split; [assumption|]. constructor; [assumption|]. rewrite Forall_app. auto.
Qed.
Lemma ssorted_insert {A} (R : A -> A -> Prop) a x b : StronglySorted R (a ++ b) -> Forall (fun y => R y x) a -> Forall (R x) b ->
  StronglySorted R (a ++ x :: b).
Proof.
  induction a as [|y a IH]; cbn; intros H H1 H2; [now constructor|]. inversion H as [|? ? I1 I2]; subst. inversion H1; subst.
  constructor; [now apply IH|]. rewrite Forall_app in I2 |- *. destruct I2. split; [assumption|]. now constructor.
Qed.
Lemma ssorted_nodup l : StronglySorted Z.lt l -> NoDup l.
Proof. induction 1 as [|x l H IH F]; constructor; [|assumption]. intros Hi. rewrite Forall_forall in F. specialize (F x Hi). lia. Qed.
Lemma nodup_app_l {A} (a b : list A) : NoDup (a ++ b) -> NoDup a.
Proof. induction a as [|x a IH]; cbn; intros H; [constructor|]. inversion H; subst. constructor; [|auto]. intros Hx. apply H2. apply in_app_iff. auto. Qed.
Lemma sorted_split {A} (f : A -> Z) l i : StronglySorted Z.lt (map f l) ->
  exists a b, l = a ++ b /\ Forall (fun x => f x < i) a /\ Forall (fun x => i <= f x) b.
Proof.
  induction l as [|x l IH]; cbn [map]; intros H; [exists [], []; auto|]. inversion H as [|? ? H1 H2]; subst.
  destruct (Z_lt_ge_dec (f x) i) as [Hlt|Hge].
  - destruct (IH H1) as (a & b & -> & Ha & Hb). exists (x :: a), b. split; [reflexivity|]. auto.
  - exists [], (x :: l). split; [reflexivity|]. split; [constructor|]. constructor; [lia|]. rewrite Forall_map in H2. eapply Forall_impl; [|exact H2]. cbn. intros; lia.
Qed.
Lemma sorted_same l : forall m, StronglySorted Z.lt l -> StronglySorted Z.lt m -> (forall i, In i l <-> In i m) -> l = m.
Proof.
  induction l as [|x l IH]; intros m Hl Hm H.
  - destruct m as [|y m]; [reflexivity|]. exfalso. apply (H y). now left.
  - destruct m as [|y m]; [exfalso; apply (H x); now left|]. inversion Hl as [|? ? L1 L2]; inversion Hm as [|? ? M1 M2]; subst. rewrite Forall_forall in L2, M2.
    assert (x = y). { destruct (proj1 (H x) (or_introl eq_refl)) as [|Hx]; [congruence|]. destruct (proj2 (H y) (or_introl eq_refl)) as [|Hy]; [congruence|]. specialize (L2 y Hy). specialize (M2 x Hx). lia. }
    subst y. f_equal. apply IH; auto. intros i. split; intros Hi.
    + destruct (proj1 (H i) (or_intror Hi)) as [->|]; [specialize (L2 _ Hi); lia|assumption].
    + destruct (proj2 (H i) (or_intror Hi)) as [->|]; [specialize (M2 _ Hi); lia|assumption].
Qed.

Lemma proto_prefix_idem b : proto_prefix (Some (proto_prefix b)) = proto_prefix b.
Proof.
  unfold proto_prefix. set (p := match b with None => v0prefix | Some p => with_codec DagProtobuf p end).
  assert (Hc : p_codec p = DagProtobuf).
  { unfold p. destruct b as [q|]; [|reflexivity]. unfold with_codec. destruct (p_codec q =? DagProtobuf) eqn:E; [lia|reflexivity]. }
  unfold with_codec at 1. cbn [resolve p_codec]. rewrite Hc. rewrite Z.eqb_refl. unfold resolve. cbn [p_version p_codec p_mhtype p_mhlen].
  f_equal. unfold default_mhlen. destruct (p_mhlen p =? -1) eqn:E1; [destruct (p_mhtype p =? 19); reflexivity|]. now rewrite E1.
Qed.

Section Rep.
  (** [P]: the CID prefixes the shards may have. *)
  Variables (hash : bytes -> bytes) (L lg W : Z) (P : prefix -> Prop).
  Hypothesis Hlg : 3 <= lg <= 10.
  Hypothesis HW : Logtwo W = Ok lg.
  Hypothesis Hhash : forall k, 8 * zlen (hash k) = L.

  Definition pad : nat := length (hexX (W - 1)).
  (** Slot of a name at a depth ([c] bits used). *)
  Definition slot_of (k : bytes) (c : Z) : Z := bits_at (hash k) c lg.

  Lemma W_pow : W = 2 ^ lg.
  Proof. now apply Logtwo_ok in HW as [_ H]. Qed.
  Lemma W_bounds : 8 <= W <= 1024 /\ W mod 8 = 0.
  Proof.
    assert (E : W = 2 ^ (lg - 3) * 8) by (rewrite W_pow; change 8 with (2 ^ 3); rewrite <- Z.pow_add_r by lia; f_equal; lia).
    pose proof W_pow. pose proof (Z.pow_le_mono_r 2 lg 10 ltac:(lia) ltac:(lia)). pose proof (Z.pow_pos_nonneg 2 (lg - 3) ltac:(lia) ltac:(lia)).
    change (2 ^ 10) with 1024 in *. lia.
  Qed.
  Lemma slot_range k c : 0 <= slot_of k c < W.
  Proof. rewrite W_pow. apply bits_at_range. lia. Qed.
  Lemma logtwo_W : Logtwo W = Ok lg.
  Proof. exact HW. Qed.
  Definition zeros := repeat x00 (Z.to_nat (W / 8)).
  Lemma zeros_len : 8 * zlen zeros = W.
  Proof. pose proof W_bounds. unfold zeros, zlen. rewrite repeat_length. lia. Qed.
  Lemma newChilder_W : newChilder W = Ok zeros.
  Proof. pose proof W_bounds. unfold newChilder, maximumHamtWidth. replace (1024 <? W) with false by lia. apply NewBitfield_ok; lia. Qed.
  Lemma makeShard_W k v : makeShard W k v = Ok (mkShard W None zeros k v []).
  Proof. unfold makeShard. rewrite logtwo_W. cbn [rbind]. now rewrite newChilder_W. Qed.

  (** Bitmap of a set of slots. *)
  Definition bitmap (bf : bytes) (idxs : list Z) : Prop :=
    8 * zlen bf = W /\ forall i, 0 <= i < W -> (occupied bf i = true <-> In i idxs).
  Definition mkbm (idxs : list Z) : bytes :=
    fold_right (fun i bf => match bf_set bf i with Ok b => b | _ => bf end) zeros idxs.
  Lemma mkbm_ok idxs : Forall (fun i => 0 <= i < W) idxs -> bitmap (mkbm idxs) idxs.
  Proof.
    induction 1 as [|i l Hi _ IH].
    - split; [apply zeros_len|]. intros i Hi. cbn [mkbm fold_right]. unfold zeros. rewrite occupied_zero. cbn. split; [discriminate|tauto].
    - cbn [mkbm fold_right]. fold (mkbm l). destruct IH as [I1 I2]. destruct (bf_set_ok (mkbm l) i ltac:(lia)) as (b & -> & B1 & B2).
      split; [lia|]. intros j Hj. rewrite B2 by lia. rewrite orb_true_iff, I2 by lia. cbn. rewrite Z.eqb_eq. split; intros [H|H]; auto.
  Qed.
  Lemma bitmap_unique a b idxs : bitmap a idxs -> bitmap b idxs -> a = b.
  Proof.
    intros [A1 A2] [B1 B2]. apply bf_ext; [lia|]. intros i Hi. specialize (A2 i ltac:(lia)). specialize (B2 i ltac:(lia)).
    destruct (occupied a i), (occupied b i); try reflexivity; exfalso; intuition congruence.
  Qed.
  Lemma bitmap_has bf idxs i : bitmap bf idxs -> 0 <= i < W -> exists b, bf_bit bf i = Ok b /\ (b = true <-> In i idxs).
  Proof. intros [B1 B2] Hi. rewrite bf_bit_ok by lia. eauto. Qed.
  Lemma bitmap_before bf a b i : bitmap bf (a ++ b) -> StronglySorted Z.lt (a ++ b) -> Forall (fun x => 0 <= x < W) (a ++ b) ->
    Forall (fun x => x < i) a -> Forall (fun x => i <= x) b -> 0 <= i < W -> bf_before bf i = Ok (zlen a).
  Proof.
    intros [B1 B2] Hs Hr Ha Hb Hi. rewrite bf_before_ok by lia. f_equal. unfold occupied_before, zlen. f_equal.
    rewrite <- (map_length Z.of_nat). apply Permutation_length. apply NoDup_Permutation.
    - apply FinFun.Injective_map_NoDup; [intros x y; lia|]. apply NoDup_filter, seq_NoDup.
    - apply ssorted_nodup in Hs. eapply nodup_app_l; exact Hs.
    - intros x. rewrite in_map_iff. split.
      + intros (k & <- & Hk). apply filter_In in Hk as [H1 H2]. apply in_seq in H1. apply B2 in H2; [|lia]. apply in_app_iff in H2 as [H2|H2]; [assumption|].
        rewrite Forall_forall in Hb. specialize (Hb _ H2). lia.
      + intros Hx. rewrite Forall_forall in Ha, Hr. specialize (Ha _ Hx). specialize (Hr x ltac:(apply in_app_iff; auto)). exists (Z.to_nat x). split; [lia|].
        apply filter_In. split; [apply in_seq; lia|]. rewrite Z2Nat.id by lia. apply B2; [lia|]. apply in_app_iff. auto.
  Qed.
  Lemma set_bits_spec bf n : forall from, 0 <= from -> from + Z.of_nat n <= 8 * zlen bf ->
    exists l, set_bits bf from n = Ok l /\ StronglySorted Z.lt l /\ (forall i, In i l <-> from <= i < from + Z.of_nat n /\ occupied bf i = true).
  Proof.
    clear. induction n as [|n IH]; intros from H0 H1; cbn [set_bits].
    - exists []. split; [reflexivity|]. split; [constructor|]. intros i. cbn. lia.
    - rewrite bf_bit_ok by lia. cbn [rbind]. destruct (IH (from + 1)) as (l & -> & S1 & S2); [lia|lia|]. cbn [rbind]. eexists. split; [reflexivity|].
      assert (Hne : forall i, In i l -> from < i) by (intros i Hi; apply S2 in Hi; lia).
      destruct (occupied bf from) eqn:E.
      + split; [constructor; [assumption|now rewrite Forall_forall]|]. intros i. cbn. rewrite S2. split; [intros [<-|[? ?]]; [split; [lia|assumption]|split; [lia|assumption]]|].
        intros [H2 H3]. destruct (Z.eq_dec from i); [now left|right; split; [lia|assumption]].
      + split; [assumption|]. intros i. rewrite S2. split; [intros [? ?]; split; [lia|assumption]|]. intros [H2 H3]. split; [|assumption]. destruct (Z.eq_dec from i); [congruence|lia].
  Qed.
  Lemma bitmap_bits bf idxs : bitmap bf idxs -> StronglySorted Z.lt idxs -> Forall (fun i => 0 <= i < W) idxs -> set_bits bf 0 (Z.to_nat W) = Ok idxs.
  Proof.
    intros [B1 B2] Hs Hr. pose proof W_bounds. destruct (set_bits_spec bf (Z.to_nat W) 0) as (l & -> & S1 & S2); [lia|lia|]. f_equal. apply sorted_same; [assumption|assumption|].
    intros i. rewrite S2. rewrite Forall_forall in Hr. split; [intros [? ?]; apply B2; [lia|assumption]|]. intros Hi. specialize (Hr i Hi). split; [lia|]. apply B2; [lia|assumption].
  Qed.

  (** *** Serialised form *)
  Definition hdata (idxs : list Z) : bytes :=
    match HAMTShardData (bf_bytes (mkbm idxs)) W HashMurmur3 with Ok b => b | _ => [] end.

  (** *** Canonical tries *)
  Fixpoint wf (c : Z) (t : trie) {struct t} : Prop :=
    match t with
    | Leaf k _ => k <> []
    | Branch kids =>
        (2 <= length (entries t))%nat /\ c + lg <= L /\ StronglySorted Z.lt (map fst kids) /\
        fold_right (fun x Q => ((forall k, In k (keys (snd x)) -> slot_of k c = fst x) /\ wf (c + lg) (snd x)) /\ Q) True kids
    end.
  Definition wfk (c : Z) (kids : list (Z * trie)) : Prop :=
    c + lg <= L /\ StronglySorted Z.lt (map fst kids) /\
    Forall (fun x => (forall k, In k (keys (snd x)) -> slot_of k c = fst x) /\ wf (c + lg) (snd x)) kids.
  Lemma fold_Forall {A} (Q : A -> Prop) l : fold_right (fun x R => Q x /\ R) True l <-> Forall Q l.
  Proof. induction l as [|x l IH]; cbn; [split; auto|]. rewrite IH, Forall_cons_iff. tauto. Qed.
  Lemma wf_branch c kids : wf c (Branch kids) <-> (2 <= length (entriesk kids))%nat /\ wfk c kids.
  Proof. unfold wfk. cbn [wf]. rewrite fold_Forall. cbn [entries]. fold (entriesk kids). tauto. Qed.

  Lemma wf_nonempty t c : wf c t -> exists k, In k (keys t).
  Proof.
    destruct t as [k v|kids]; intros H; [exists k; now left|]. apply wf_branch in H as [H _]. unfold keys. cbn [entries]. fold (entriesk kids).
    destruct (entriesk kids) as [|e ?]; [cbn in H; lia|]. exists (fst e). now left.
  Qed.
  Lemma wfk_range c kids : wfk c kids -> Forall (fun i => 0 <= i < W) (map fst kids).
  Proof.
    intros (_ & _ & H). rewrite Forall_map. eapply Forall_impl; [|exact H]. intros x [H1 H2]. destruct (wf_nonempty _ _ H2) as [k Hk]. rewrite <- (H1 k Hk). apply slot_range.
  Qed.
  Lemma wfk_nil c : c + lg <= L -> wfk c [].
  Proof. intros H. split; [assumption|]. split; constructor. Qed.
  Lemma keys_in_kids k kids : In k (keysk kids) -> exists x, In x kids /\ In k (keys (snd x)).
  Proof.
    unfold keysk, entriesk, keys. rewrite in_map_iff. intros (e & <- & He). apply in_flat_map in He as (x & Hx & He). exists x. split; [assumption|]. now apply in_map.
  Qed.
  Lemma wfk_slot c kids k : wfk c kids -> In k (keysk kids) -> In (slot_of k c) (map fst kids).
  Proof.
    intros (_ & _ & H) Hk. apply keys_in_kids in Hk as (x & Hx & Hk). rewrite Forall_forall in H. destruct (H x Hx) as [H1 _]. rewrite (H1 _ Hk). now apply in_map.
  Qed.
  Lemma wfk_mid c pre i t post : wfk c (pre ++ (i, t) :: post) ->
    (forall k, In k (keys t) -> slot_of k c = i) /\ wf (c + lg) t /\ Forall (fun x => fst x < i) pre /\ Forall (fun x => i < fst x) post /\ 0 <= i < W.
  Proof.
    intros H. pose proof (wfk_range _ _ H) as R. destruct H as (_ & H1 & H2). rewrite map_app in H1, R. cbn [map fst] in H1, R. apply ssorted_app in H1 as (S1 & S2 & _).
    rewrite Forall_map in S1, S2. rewrite Forall_app in H2, R. destruct H2 as [_ H2]. destruct R as [_ R]. inversion H2 as [|? ? [K1 K2] ?]; subst. inversion R; subst. cbn [fst snd] in *. auto.
  Qed.
  Lemma wfk_other c pre i t post k : wfk c (pre ++ (i, t) :: post) -> slot_of k c = i -> ~ In k (keysk pre) /\ ~ In k (keysk post).
  Proof.
    intros H Hk. pose proof (wfk_mid _ _ _ _ _ H) as (_ & _ & S1 & S2 & _). destruct H as (_ & _ & H). rewrite Forall_app in H. destruct H as [F1 F2]. inversion F2 as [|? ? _ F3]; subst.
    rewrite Forall_forall in S1, S2, F1, F3.
    split; intros Hi; apply keys_in_kids in Hi as (x & Hx & Hi).
    - destruct (F1 x Hx) as [A _]. specialize (A k Hi). specialize (S1 x Hx). lia.
    - destruct (F3 x Hx) as [A _]. specialize (A k Hi). specialize (S2 x Hx). lia.
  Qed.
  Lemma wfk_set c pre i t t' post : wfk c (pre ++ (i, t) :: post) -> wf (c + lg) t' -> (forall k, In k (keys t') -> slot_of k c = i) ->
    wfk c (pre ++ (i, t') :: post).
  Proof.
    intros (H1 & H2 & H3) Hw Hk. split; [assumption|]. rewrite map_app in *. cbn [map fst] in *. split; [assumption|].
    rewrite Forall_app in *. destruct H3 as [F1 F2]. split; [assumption|]. inversion F2; subst. constructor; [split; assumption|assumption].
  Qed.
  Lemma wfk_remove c pre x post : wfk c (pre ++ x :: post) -> wfk c (pre ++ post).
  Proof.
    intros (H1 & H2 & H3). split; [assumption|]. rewrite map_app in *. cbn [map] in H2. split; [now apply ssorted_app in H2|].
    rewrite Forall_app in *. destruct H3 as [F1 F2]. split; [assumption|]. now inversion F2.
  Qed.
  Lemma wfk_insert c pre post i t : wfk c (pre ++ post) -> Forall (fun x => fst x < i) pre -> Forall (fun x => i < fst x) post ->
    wf (c + lg) t -> (forall k, In k (keys t) -> slot_of k c = i) -> wfk c (pre ++ (i, t) :: post).
  Proof.
    intros (H1 & H2 & H3) Fa Fb Hw Hk. split; [assumption|]. rewrite map_app in *. cbn [map fst] in *. split.
    - apply ssorted_insert; [assumption|now rewrite Forall_map|now rewrite Forall_map].
    - rewrite Forall_app in *. destruct H3 as [F1 F2]. split; [assumption|]. constructor; [split; assumption|assumption].
  Qed.

  (** Names are unique. *)
  Lemma nodup_app {A} (a b : list A) : NoDup a -> NoDup b -> (forall x, In x a -> ~ In x b) -> NoDup (a ++ b).
  Proof.
    induction a as [|x a IH]; cbn; intros H1 H2 H3; [assumption|]. inversion H1; subst. constructor.
    - rewrite in_app_iff. intros [|Hb]; [contradiction|]. exact (H3 x (or_introl eq_refl) Hb).
    - apply IH; auto.
  Qed.
  Lemma wfk_nodup_aux c kids : Forall (fun x => forall c, wf c (snd x) -> NoDup (keys (snd x))) kids -> wfk c kids -> NoDup (keysk kids).
  Proof.
    induction kids as [|[i t] r IH]; intros HI H; [constructor|]. inversion HI as [|? ? HI1 HI2]; subst. rewrite keysk_cons.
    pose proof (wfk_mid c [] i t r H) as (K1 & K2 & _ & _ & _). apply nodup_app.
    - now apply (HI1 (c + lg)).
    - apply IH; [assumption|]. now apply (wfk_remove c [] (i, t) r).
    - intros k Hk. apply (wfk_other c [] i t r k H). now apply K1.
  Qed.
  Lemma wf_nodup t : forall c, wf c t -> NoDup (keys t).
  Proof.
    induction t as [k v|kids IH] using trie_ind'; intros c H; [constructor; [intros []|constructor]|].
    apply wf_branch in H as [_ H]. exact (wfk_nodup_aux c kids IH H).
  Qed.
  Lemma wfk_nodup c kids : wfk c kids -> NoDup (keysk kids).
  Proof. apply wfk_nodup_aux. apply Forall_forall. intros x _ c'. apply wf_nodup. Qed.

  (** The contents determine the trie. *)
  Lemma wfk_unique_aux kids : Forall (fun x => forall c t', wf c (snd x) -> wf c t' -> (forall e, In e (entries (snd x)) <-> In e (entries t')) -> snd x = t') kids ->
    forall c kids', wfk c kids -> wfk c kids' -> (forall e, In e (entriesk kids) <-> In e (entriesk kids')) -> kids = kids'.
  Proof.
    induction kids as [|[i t] r IH]; intros HI c kids' H H' E.
    - destruct kids' as [|[j u] r']; [reflexivity|]. exfalso. destruct (wfk_mid c [] j u r' H') as (_ & K2 & _). destruct (wf_nonempty _ _ K2) as [k Hk].
      unfold keys in Hk. apply in_map_iff in Hk as (e & <- & He). apply (E e). rewrite entriesk_cons. apply in_app_iff. auto.
    - inversion HI as [|? ? HI1 HI2]; subst. pose proof (wfk_mid c [] i t r H) as (K1 & K2 & _ & K4 & _). destruct kids' as [|[j u] r'].
      { exfalso. destruct (wf_nonempty _ _ K2) as [k Hk]. unfold keys in Hk. apply in_map_iff in Hk as (e & <- & He). apply (E e). rewrite entriesk_cons. apply in_app_iff. auto. }
      pose proof (wfk_mid c [] j u r' H') as (M1 & M2 & _ & M4 & _).
      assert (Hdom : forall kk e, wfk c kk -> In e (entriesk kk) -> In (slot_of (fst e) c) (map fst kk)) by (intros kk e Hw He; apply wfk_slot; [assumption|unfold keysk; now apply in_map]).
      assert (Eij : i = j).
      { destruct (wf_nonempty _ _ K2) as [k Hk]. destruct (wf_nonempty _ _ M2) as [k' Hk']. pose proof (K1 _ Hk). pose proof (M1 _ Hk').
        unfold keys in Hk, Hk'. apply in_map_iff in Hk as (e & <- & He). apply in_map_iff in Hk' as (e' & <- & He').
        assert (A : In (slot_of (fst e) c) (map fst ((j, u) :: r'))) by (apply Hdom; [assumption|]; apply E; rewrite entriesk_cons; apply in_app_iff; auto).
        assert (B : In (slot_of (fst e') c) (map fst ((i, t) :: r))) by (apply Hdom; [assumption|]; apply E; rewrite entriesk_cons; apply in_app_iff; auto).
        cbn [map fst] in A, B. rewrite Forall_forall in K4, M4.
        destruct A as [A|A]; [congruence|]. destruct B as [B|B]; [congruence|]. apply in_map_iff in A as (x & Ax & A). apply in_map_iff in B as (y & By & B).
        specialize (M4 _ A). specialize (K4 _ B). lia. }
      subst j.
      assert (Et : forall e, In e (entries t) <-> In e (entries u)).
      { intros e. split; intros He.
        - assert (A : In e (entriesk ((i, u) :: r'))) by (apply E; rewrite entriesk_cons; apply in_app_iff; auto). rewrite entriesk_cons in A. apply in_app_iff in A as [A|A]; [assumption|].
          exfalso. apply (wfk_other c [] i u r' (fst e) H'); [apply K1; unfold keys; now apply in_map|]. unfold keysk. now apply in_map.
        - assert (A : In e (entriesk ((i, t) :: r))) by (apply E; rewrite entriesk_cons; apply in_app_iff; auto). rewrite entriesk_cons in A. apply in_app_iff in A as [A|A]; [assumption|].
          exfalso. apply (wfk_other c [] i t r (fst e) H); [apply M1; unfold keys; now apply in_map|]. unfold keysk. now apply in_map. }
      cbn [snd] in HI1. rewrite (HI1 (c + lg) u K2 M2 Et). f_equal. apply (IH HI2 c); [apply (wfk_remove c [] (i, t) r H)|apply (wfk_remove c [] (i, u) r' H')|].
      intros e. specialize (E e). rewrite !entriesk_cons, !in_app_iff in E. split; intros He.
      + destruct (proj1 E (or_intror He)) as [A|A]; [|assumption]. exfalso. apply (wfk_other c [] i t r (fst e) H); [apply M1; unfold keys; now apply in_map|]. unfold keysk. now apply in_map.
      + destruct (proj2 E (or_intror He)) as [A|A]; [|assumption]. exfalso. apply (wfk_other c [] i u r' (fst e) H'); [apply K1; unfold keys; now apply in_map|]. unfold keysk. now apply in_map.
  Qed.
  Lemma one_nodup {A} (a : A) l : NoDup l -> (forall x, In x l -> x = a) -> (length l <= 1)%nat.
  Proof.
    intros Hn H. destruct l as [|x [|y l]]; cbn; [lia|lia|]. exfalso. inversion Hn as [|? ? N1 _]; subst. apply N1. left. rewrite (H x), (H y); [reflexivity| |]; cbn; auto.
  Qed.
  Lemma nodup_map_inv {A B} (f : A -> B) l : NoDup (map f l) -> NoDup l.
  Proof. induction l as [|x l IH]; cbn; intros H; [constructor|]. inversion H; subst. constructor; [|auto]. intros Hx. apply H2. now apply in_map. Qed.
  Lemma wf_unique t : forall c t', wf c t -> wf c t' -> (forall e, In e (entries t) <-> In e (entries t')) -> t = t'.
  Proof.
    induction t as [k v|kids IH] using trie_ind'; intros c [k' v'|kids'] H H' E.
    - specialize (E (k, v)). cbn in E. destruct (proj1 E (or_introl eq_refl)) as [A|[]]. congruence.
    - exfalso. pose proof (wf_nodup _ _ H') as N. apply nodup_map_inv in N. apply wf_branch in H' as [H' _]. cbn [entries] in *. fold (entriesk kids') in *.
      assert (length (entriesk kids') <= 1)%nat; [|lia]. apply (one_nodup (k, v)); [assumption|]. intros x Hx. apply E in Hx. destruct Hx as [<-|[]]. reflexivity.
    - exfalso. pose proof (wf_nodup _ _ H) as N. apply nodup_map_inv in N. apply wf_branch in H as [H _]. cbn [entries] in *. fold (entriesk kids) in *.
      assert (length (entriesk kids) <= 1)%nat; [|lia]. apply (one_nodup (k', v')); [assumption|]. intros x Hx. apply E in Hx. destruct Hx as [<-|[]]. reflexivity.
    - f_equal. apply wf_branch in H as [_ H]. apply wf_branch in H' as [_ H']. exact (wfk_unique_aux kids IH c kids' H H' E).
  Qed.
  Lemma wfk_unique c kids kids' : wfk c kids -> wfk c kids' -> (forall e, In e (entriesk kids) <-> In e (entriesk kids')) -> kids = kids'.
  Proof. apply wfk_unique_aux. apply Forall_forall. intros x _ c' t'. apply wf_unique. Qed.

  (** ** Representation *)

  (** [U]: the shard blocks that may be left unloaded. *)
  Variable U : node -> Prop.

  (** [ser t nd]: [nd] is the stored form of [t], with shards of prefixes in [P], all in [U]. *)
  Fixpoint ser (t : trie) (nd : node) {struct t} : Prop :=
    match t with
    | Leaf _ v => nd = snd v
    | Branch kids =>
        exists p ls, nd = NProto p (hdata (map fst kids)) ls /\ P p /\ U nd /\
          (fix go (ks : list (Z * trie)) (ls : list link) {struct ks} : Prop :=
             match ks, ls with
             | [], [] => True
             | y :: kr, l :: lr =>
                 (lname l = hexpad pad (fst y) ++ tkey (snd y) /\ lsize l = (match snd y with Leaf _ v => fst v | Branch _ => node_size (lto l) end) /\ ser (snd y) (lto l)) /\ go kr lr
             | _, _ => False
             end) kids ls
    end.
  Definition ser_link (y : Z * trie) (l : link) : Prop :=
    lname l = hexpad pad (fst y) ++ tkey (snd y) /\ lsize l = (match snd y with Leaf _ v => fst v | Branch _ => node_size (lto l) end) /\ ser (snd y) (lto l).
  Lemma ser_branch kids nd : ser (Branch kids) nd <-> exists p ls, nd = NProto p (hdata (map fst kids)) ls /\ P p /\ U nd /\ Forall2 ser_link kids ls.
  Proof.
    cbn [ser]. set (go := fix go (ks : list (Z * trie)) (ls : list link) {struct ks} : Prop := _).
    assert (G : forall ks ls, go ks ls <-> Forall2 ser_link ks ls).
    { induction ks as [|y ks IH]; intros [|x ls]; cbn; split; intros H; try tauto; try (now constructor); try (now inversion H).
      - destruct H as [H1 H2]. constructor; [assumption|now apply IH].
      - inversion H; subst. split; [assumption|now apply IH]. }
    split; intros (p & ls & H1 & H2 & H3 & H4); exists p, ls; (split; [exact H1|]; split; [exact H2|]; split; [exact H3|]; now apply G).
  Qed.
  Lemma ser_U kids nd : ser (Branch kids) nd -> U nd.
  Proof. intros H. apply ser_branch in H as (p & ls & _ & _ & H & _). exact H. Qed.

  (** The name of a value's link: that of the entry, with or without a slot prefix. *)
  Definition labelled (k nm : bytes) : Prop := exists p, (p = [] \/ length p = pad) /\ nm = p ++ k.
  Lemma labelled_len k nm : labelled k nm -> (length k <= length nm <= pad + length k)%nat.
  Proof using. clear U Hhash hash Hlg HW L lg P. intros (p & H & ->). rewrite app_length. destruct H as [->|H]; cbn [length]; lia. Qed.
  Lemma labelled_plain k : labelled k k.
  Proof. exists []. auto. Qed.
  Lemma labelled_pre p k : length p = pad -> labelled k (p ++ k).
  Proof. intros H. exists p. auto. Qed.
  Fixpoint rep (x : slot shard) (t : trie) {struct t} : Prop :=
    match t with
    | Leaf k v =>
        match x with
        | SLink l => (exists p, length p = pad /\ lname l = p ++ k) /\ content l = v
        | SShard c => s_key c = k /\ (exists l, s_val c = Some l /\ content l = v /\ labelled k (lname l))
        end
    | Branch kids =>
        match x with
        | SLink l => length (lname l) = pad /\ lsize l = node_size (lto l) /\ ser t (lto l)
        | SShard c =>
            (s_key c = [] /\ s_val c = None) /\ s_size c = W /\ P (proto_prefix (s_builder c)) /\ bitmap (s_bf c) (map fst kids) /\
            (fix go (ks : list (Z * trie)) (sl : list (slot shard)) {struct ks} : Prop :=
               match ks, sl with
               | [], [] => True
               | y :: kr, x :: sr => rep x (snd y) /\ go kr sr
               | _, _ => False
               end) kids (s_slots c)
        end
    end.
  Definition reps (ds : shard) (kids : list (Z * trie)) : Prop :=
    (s_key ds = [] /\ s_val ds = None) /\ s_size ds = W /\ P (proto_prefix (s_builder ds)) /\ bitmap (s_bf ds) (map fst kids) /\
    Forall2 (fun y x => rep x (snd y)) kids (s_slots ds).
  Lemma rep_branch c kids : rep (SShard c) (Branch kids) <-> reps c kids.
  Proof.
    unfold reps. cbn [rep]. set (go := fix go (ks : list (Z * trie)) (sl : list (slot shard)) {struct ks} : Prop := _).
    assert (G : forall ks sl, go ks sl <-> Forall2 (fun y x => rep x (snd y)) ks sl).
    { induction ks as [|y ks IH]; intros [|x sl]; cbn; split; intros H; try tauto; try (now constructor); try (now inversion H).
      - destruct H as [H1 H2]. constructor; [assumption|now apply IH].
      - inversion H; subst. split; [assumption|now apply IH]. }
    rewrite G. tauto.
  Qed.

  Lemma reps_new b : P (proto_prefix b) -> forall s, NewShard W = Ok s -> reps (SetCidBuilder b s) [].
  Proof.
    intros Hb s Hs. unfold NewShard, NewShardValue in Hs. rewrite makeShard_W in Hs. injection Hs as <-. cbn [SetCidBuilder s_key s_size s_builder s_bf s_slots s_val].
    split; [auto|]. split; [reflexivity|]. split; [assumption|]. split; [|constructor]. exact (mkbm_ok [] (Forall_nil _)).
  Qed.

  Lemma isValue_leaf c k v : k <> [] -> rep (SShard c) (Leaf k v) -> isValueNode c = true /\ s_key c = k /\ exists l, s_val c = Some l /\ content l = v /\ labelled k (lname l).
  Proof.
    intros Hk [H1 [l [H2 H3]]]. split; [|eauto]. unfold isValueNode. rewrite H1, H2. now destruct k.
  Qed.
  Lemma isValue_branch c kids : rep (SShard c) (Branch kids) -> isValueNode c = false.
  Proof. intros H. apply rep_branch in H as [[H _] _]. unfold isValueNode. now rewrite H. Qed.

  Lemma reps_lg ds kids : reps ds kids -> tableSizeLg2 ds = lg /\ maxpadlen ds = pad.
  Proof. intros (_ & H & _). unfold tableSizeLg2, maxpadlen, pad. rewrite H, logtwo_W. auto. Qed.

  Lemma forall2_split {A B} (R : A -> B -> Prop) a x b sl : Forall2 R (a ++ x :: b) sl ->
    exists sa y sb, sl = sa ++ y :: sb /\ length sa = length a /\ Forall2 R a sa /\ R x y /\ Forall2 R b sb.
  Proof.
    clear. revert sl. induction a as [|z a IH]; cbn; intros sl H.
    - inversion H; subst. exists [], y, l'. auto.
    - inversion H as [|? y ? l' H1 H2]; subst. destruct (IH _ H2) as (sa & y' & sb & -> & E & H3 & H4 & H5). exists (y :: sa), y', sb. cbn. auto.
  Qed.
  Lemma forall2_length {A B} (R : A -> B -> Prop) a b : Forall2 R a b -> length a = length b.
  Proof using. clear. induction 1; cbn; auto. Qed.
  Lemma set_nth_mid {A} (a : list A) x y b : set_nth (length a) y (a ++ x :: b) = a ++ y :: b.
  Proof using. clear. induction a; cbn; [reflexivity|now f_equal]. Qed.
  Lemma nth_error_mid {A} (a : list A) x b : nth_error (a ++ x :: b) (length a) = Some x.
  Proof using. clear. induction a; cbn; auto. Qed.

  Lemma reps_nth ds pre i t post : reps ds (pre ++ (i, t) :: post) ->
    exists x, nth_error (s_slots ds) (Z.to_nat (zlen pre)) = Some x /\ rep x t /\ check ds (zlen pre) = Ok tt.
  Proof.
    intros (_ & _ & _ & _ & H). apply forall2_split in H as (sa & y & sb & E & El & _ & H & _). exists y. rewrite E. unfold zlen at 1. rewrite Nat2Z.id, <- El, nth_error_mid.
    split; [reflexivity|]. split; [assumption|]. unfold check. rewrite E, zlen_app, zlen_cons. pose proof (zlen_nonneg sb). unfold zlen in *. rewrite El. replace (_ || _) with false by lia. reflexivity.
  Qed.
  Lemma reps_set ds pre i t t' post x : reps ds (pre ++ (i, t) :: post) -> rep x t' -> reps (set_child x (zlen pre) ds) (pre ++ (i, t') :: post).
  Proof.
    intros (H1 & H2 & H3 & H4 & H5) Hx. apply forall2_split in H5 as (sa & y & sb & E & El & F1 & _ & F2). unfold reps, set_child, set_slots.
    cbn [s_key s_size s_builder s_bf s_slots]. split; [assumption|]. split; [assumption|]. split; [assumption|]. split.
    - rewrite map_app in *. exact H4.
    - unfold zlen. rewrite Nat2Z.id, E, <- El, set_nth_mid. apply Forall2_app; [assumption|]. constructor; assumption.
  Qed.
  Lemma set_child_twice x y i ds : set_child x i (set_child y i ds) = set_child x i ds.
  Proof.
    unfold set_child, set_slots. cbn. f_equal. generalize (s_slots ds). generalize (Z.to_nat i). clear. intros n l. revert n. induction l as [|z l IH]; intros [|n]; cbn; auto. now rewrite IH.
  Qed.
  Lemma set_child_same x i ds : nth_error (s_slots ds) (Z.to_nat i) = Some x -> set_child x i ds = ds.
  Proof.
    destruct ds as [z b f k v sl]. unfold set_child, set_slots. cbn. intros H. f_equal. revert H. generalize (Z.to_nat i). clear. intros n. revert n. induction sl as [|y l IH]; intros [|n] H; cbn in *; try congruence.
    now rewrite IH.
  Qed.

  (** Loading a stored shard. *)
  Lemma load_ser kids c nd : wfk c kids -> ser (Branch kids) nd -> (forall p, P p -> p = proto_prefix (Some p)) ->
    exists ds, NewHamtFromDag nd = Ok ds /\ reps ds kids /\ s_builder ds = Some (node_prefix nd).
  Proof.
    intros Hwf HU HP. apply ser_branch in HU as (p & ls & -> & Pp & _ & HU). unfold NewHamtFromDag. pose proof W_bounds as WB. pose proof (wfk_range _ _ Hwf) as HR.
    destruct (HAMTShardData_decode (bf_bytes (mkbm (map fst kids))) W HashMurmur3) as (b & Eb & Hb).
    { destruct (mkbm_ok _ HR) as [B1 _]. destruct (bf_bytes_zero (mkbm (map fst kids))) as [n Hn]. unfold zlen in *. rewrite Hn, app_length in B1. unfold two64. lia. }
    { unfold in_u64, two64. lia. }
    { unfold in_u64, two64, HashMurmur3. lia. }
    unfold hdata. rewrite Eb. unfold FSNodeFromBytes. rewrite Hb. cbn [rbind]. unfold getType, getHashType, getFanout, getData. cbn [d_type d_hashtype d_fanout d_data].
    change (THAMTShard =? THAMTShard) with true. change (HashMurmur3 =? HashMurmur3) with true. cbn [negb]. rewrite i64_small by (unfold two63; lia). rewrite makeShard_W. cbn [rbind s_bf s_size].
    destruct (mkbm_ok _ HR) as [B1 B2]. rewrite bf_roundtrip by (pose proof zeros_len; unfold zlen in *; lia). cbn [rbind].
    eexists. split; [reflexivity|]. split; [|reflexivity]. unfold reps. cbn [s_key s_size s_builder s_bf s_slots].
    split; [auto|]. split; [reflexivity|]. split; [now rewrite <- (HP p Pp)|]. split; [split; assumption|].
    destruct Hwf as (_ & _ & Hwf). clear - HU Hwf HR Hlg HW. induction HU as [|[i t] l r ls (U1 & U2 & U3) _ IH]; [constructor|]. inversion Hwf as [|? ? [_ W1] W2]; subst. cbn [map fst] in HR. inversion HR as [|? ? R1 R2]; subst. cbn [map]. constructor; [|now apply IH].
    cbn [fst snd] in *. destruct (slot_names W i R1) as (_ & Hlen & _). fold pad in Hlen. destruct t as [k v|kk]; cbn [rep].
    - split; [exists (hexpad pad i); split; [assumption|exact U1]|]. unfold content. cbn [snd ser tkey] in U2, U3. rewrite U2, U3. now destruct v.
    - split; [rewrite U1; cbn [tkey fst snd]; now rewrite app_nil_r|]. split; [exact U2|exact U3].
  Qed.

  Definition fetch_fails (w : world) : Prop := exists n, U n /\ dserv_get w n <> Ok n.

  Lemma get_child_spec w ds pre i t post c : reps ds (pre ++ (i, t) :: post) -> wf c t -> (forall p, P p -> p = proto_prefix (Some p)) ->
    (exists ch, rep (SShard ch) t /\ get_child w (zlen pre) ds = (Ok ch, set_child (SShard ch) (zlen pre) ds)) \/
    (get_child w (zlen pre) ds = (Err EFetch, ds) /\ fetch_fails w).
  Proof.
    intros H Hw HP. destruct (reps_nth _ _ _ _ _ H) as (x & Hx & Hr & Hc). unfold get_child. rewrite Hc, Hx. destruct x as [l|ch].
    2:{ left. exists ch. split; [assumption|]. now rewrite set_child_same. }
    destruct (reps_lg _ _ H) as [_ Hpad]. unfold loadChild, childLinkType. rewrite Hpad. destruct t as [k v|kids].
    - destruct Hr as [(p & Hp & Hn) Hv]. cbn [wf] in Hw. rewrite Hn, app_length, Hp. replace (_ <? _)%nat with false by lia. cbn [rbind].
      destruct k as [|k0 k]; [congruence|]. replace (pad + length (k0 :: k) =? pad)%nat with false by (cbn [length]; lia). cbn [negb].
      unfold makeShardValue. destruct H as (_ & Hs & _). rewrite Hs, makeShard_W. cbn [rbind]. rewrite Hpad, Hn, app_length, Hp. replace (_ <? _)%nat with false by lia.
      cbn [s_size s_builder s_bf s_slots]. left. eexists. split; [|reflexivity]. cbn [rep s_key s_val]. split; [|exists l; split; [reflexivity|]; split; [exact Hv|rewrite Hn; apply labelled_pre; exact Hp]]. rewrite <- Hp, skipn_app, skipn_all, Nat.sub_diag. reflexivity.
    - destruct Hr as (Hl & Hv & HU). rewrite Hl. replace (pad <? pad)%nat with false by lia. cbn [rbind]. rewrite Nat.eqb_refl. cbn [negb].
      destruct (stored w (lto l) && w_getok w (lto l)) eqn:E; unfold dserv_get; rewrite E; cbn [rbind].
      + apply wf_branch in Hw as [_ Hw]. destruct (load_ser kids c (lto l) Hw HU HP) as (ch & -> & Hch & _). left. exists ch. split; [now apply rep_branch|reflexivity].
      + right. split; [reflexivity|]. exists (lto l). split; [exact (ser_U _ _ HU)|]. unfold dserv_get. rewrite E. discriminate.
  Qed.

  (** Effect of an update on the entries. *)
  Definition upd (k : bytes) (v old : option entry) (es es' : list (bytes * entry)) : Prop :=
    match old, v with
    | None, Some v => ~ In k (map fst es) /\ Permutation es' ((k, v) :: es)
    | Some o, None => Permutation es ((k, o) :: es')
    | Some o, Some v => exists r, Permutation es ((k, o) :: r) /\ Permutation es' ((k, v) :: r)
    | None, None => False
    end.
  Lemma upd_context k v o es es' a b : ~ In k (map fst a) -> ~ In k (map fst b) -> upd k v o es es' -> upd k v o (a ++ es ++ b) (a ++ es' ++ b).
  Proof.
    clear. intros Ha Hb. assert (M : forall x (l : list (bytes * entry)) r, Permutation l (x :: r) -> Permutation (a ++ l ++ b) (x :: a ++ r ++ b)).
    { intros x l r HP. rewrite HP. cbn. symmetry. apply Permutation_middle. }
    destruct o as [o|], v as [v|]; cbn [upd]; intros H.
    - destruct H as (r & H1 & H2). exists (a ++ r ++ b). split; now apply M.
    - now apply M.
    - destruct H as [H1 H2]. split; [|now apply M]. rewrite !map_app, !in_app_iff. tauto.
    - assumption.
  Qed.
  Lemma upd_length k v o es es' : upd k v o es es' -> length es' = (length es + (if v then 1 else 0) - (if o then 1 else 0))%nat.
  Proof.
    clear. destruct o as [o|], v as [v|]; cbn [upd]; intros H.
    - destruct H as (r & H1 & H2). apply Permutation_length in H1, H2. cbn in *. lia.
    - apply Permutation_length in H. cbn in *. lia.
    - destruct H as [_ H]. apply Permutation_length in H. cbn in *. lia.
    - contradiction.
  Qed.
  Lemma upd_keys k v o es es' : upd k v o es es' -> forall k', In k' (map fst es') -> k' = k \/ In k' (map fst es).
  Proof.
    clear. destruct o as [o|], v as [v|]; cbn [upd]; intros H k' Hk.
    - destruct H as (r & H1 & H2). apply (Permutation_map fst) in H1, H2. rewrite H2 in Hk. cbn in *. destruct Hk as [|Hk]; [auto|]. right. rewrite H1. now right.
    - right. apply (Permutation_map fst) in H. rewrite H. now right.
    - destruct H as [_ H]. apply (Permutation_map fst) in H. rewrite H in Hk. cbn in Hk. destruct Hk; auto.
    - contradiction.
  Qed.
  Lemma upd_perm k v o es es' fs' : upd k v o es es' -> Permutation es' fs' -> upd k v o es fs'.
  Proof.
    clear. destruct o as [o|], v as [v|]; cbn [upd]; intros H HP.
    - destruct H as (r & H1 & H2). exists r. split; [assumption|]. now rewrite <- HP.
    - now rewrite <- HP.
    - destruct H as [H1 H]. split; [assumption|]. now rewrite <- HP.
    - contradiction.
  Qed.

  (** Agreement of two names on the usable hash bits from [c] on. *)
  Definition agree (c : Z) (k k' : bytes) : Prop := forall j, 0 <= j -> c + (j + 1) * lg <= L -> slot_of k (c + j * lg) = slot_of k' (c + j * lg).
  Lemma agree_sym c k k' : agree c k k' -> agree c k' k.
  Proof. intros H j H1 H2. symmetry. now apply H. Qed.
  Lemma agree_step c k k' : agree (c + lg) k k' -> slot_of k c = slot_of k' c -> agree c k k'.
  Proof.
    intros H E j H1 H2. destruct (Z.eq_dec j 0) as [->|]; [now replace (c + 0 * lg) with c by lia|].
    specialize (H (j - 1) ltac:(lia)). replace (c + lg + (j - 1 + 1) * lg) with (c + (j + 1) * lg) in H by lia. replace (c + lg + (j - 1) * lg) with (c + j * lg) in H by lia. auto.
  Qed.

  (** The name of a value's link may carry a slot prefix. *)
  Definition prefixed (k : bytes) (l : option link) : Prop := match l with Some l => labelled k (lname l) | None => True end.
  Definition owant (k : bytes) (old : option link) (o : option entry) : Prop := option_map content old = o /\ prefixed k old.

  Definition swap_post (w : world) (c : Z) (kids : list (Z * trie)) (k : bytes) (v : option entry) (r : res (option link)) (ds' : shard) : Prop :=
    exists kids', reps ds' kids' /\ wfk c kids' /\
    match r with
    | Ok old => exists o, owant k old o /\ upd k v o (entriesk kids) (entriesk kids')
    | Err e => kids' = kids /\
        (e = ENotExist /\ v = None /\ ~ In k (keysk kids) \/
         e = ETooDeep /\ v <> None /\ ~ In k (keysk kids) /\ (exists k', In k' (keysk kids) /\ agree c k k') \/
         e = EFetch /\ fetch_fails w)
    | _ => False
    end.

  Lemma next_hash k c : 0 <= c -> c + lg <= L -> Next (mkHB (hash k) c) lg = Ok (slot_of k c, mkHB (hash k) (c + lg)).
  Proof. intros H1 H2. apply next_ok; [assumption|lia|]. rewrite Hhash. lia. Qed.
  Lemma next_hash_end k c : L < c + lg -> Next (mkHB (hash k) c) lg = Err ETooDeep.
  Proof. intros H. apply next_end. now rewrite Hhash. Qed.

  Lemma insert_spec c pre post ds k l idx : reps ds (pre ++ post) -> wfk c (pre ++ post) -> k <> [] -> slot_of k c = idx ->
    Forall (fun x => fst x < idx) pre -> Forall (fun x => idx < fst x) post ->
    exists ds', insert k (Some l) idx ds = Ok ds' /\ reps ds' (pre ++ (idx, Leaf k (content l)) :: post).
  Proof.
    intros Hr Hwf Hk Hi Ha Hb. pose proof (slot_range k c) as R. rewrite Hi in R. pose proof (wfk_range _ _ Hwf) as HR.
    destruct Hr as (H1 & H2 & H3 & H4 & H5). unfold insert, sliceIndex.
    assert (Hbf : bf_before (s_bf ds) idx = Ok (zlen pre)).
    { replace (zlen pre) with (zlen (map fst pre)) by (unfold zlen; now rewrite map_length). destruct Hwf as (_ & Hs & _). rewrite map_app in *. eapply bitmap_before; eauto; rewrite Forall_map; [assumption|].
      eapply Forall_impl; [|exact Hb]. cbn. intros; lia. }
    rewrite Hbf. cbn [rbind]. unfold NewShardValue. assert (M : forall v, makeShard 256 k v = Ok (mkShard 256 None (repeat x00 32) k v [])) by reflexivity. rewrite M. cbn [rbind].
    apply Forall2_app_inv_l in H5 as (sa & sb & F1 & F2 & E). pose proof (forall2_length _ _ _ F1) as L1. rewrite E. rewrite zlen_app. pose proof (zlen_nonneg sb). replace (_ <? _) with false by (unfold zlen in *; lia).
    pose proof H4 as [B1 B2]. destruct (bf_set_ok (s_bf ds) idx ltac:(lia)) as (bf & -> & C1 & C2). cbn [rbind]. eexists. split; [reflexivity|].
    assert (T1 : ztake (zlen pre) (sa ++ sb) = sa). { unfold ztake, zlen. rewrite Nat2Z.id, L1, firstn_app, Nat.sub_diag, firstn_all, firstn_O. apply app_nil_r. }
    assert (T2 : zdrop (zlen pre) (sa ++ sb) = sb). { unfold zdrop, zlen. rewrite Nat2Z.id, L1, skipn_app, Nat.sub_diag, skipn_all. reflexivity. }
    rewrite T1, T2. unfold reps, set_slots. cbn [s_key s_size s_builder s_bf s_slots]. split; [assumption|]. split; [assumption|]. split; [assumption|]. split.
    - split; [lia|]. intros j Hj. rewrite C2 by lia. rewrite orb_true_iff, B2 by lia. rewrite !map_app, !in_app_iff. cbn [map fst In]. rewrite Z.eqb_eq. intuition.
    - apply Forall2_app; [assumption|]. constructor; [|assumption]. cbn [snd rep s_key s_val]. split; [reflexivity|]. eexists. split; [reflexivity|]. split; [reflexivity|]. cbn [lname]. apply labelled_pre. unfold linkNamePrefix, maxpadlen, pad. rewrite H2. destruct (slot_names W idx R) as (_ & Hl & _). exact Hl.
  Qed.
  Lemma rm_spec c pre post ds t idx : reps ds (pre ++ (idx, t) :: post) -> wfk c (pre ++ (idx, t) :: post) ->
    exists ds', rm idx ds = Ok ds' /\ reps ds' (pre ++ post).
  Proof.
    intros Hr Hwf. pose proof (wfk_range _ _ Hwf) as HR. pose proof (wfk_mid _ _ _ _ _ Hwf) as (_ & _ & Ha & Hb & R). destruct (reps_nth _ _ _ _ _ Hr) as (_ & _ & _ & Hc).
    destruct Hr as (H1 & H2 & H3 & H4 & H5). unfold rm, sliceIndex.
    assert (Hbf : bf_before (s_bf ds) idx = Ok (zlen pre)).
    { replace (zlen pre) with (zlen (map fst pre)) by (unfold zlen; now rewrite map_length). destruct Hwf as (_ & Hs & _). rewrite map_app in *. eapply bitmap_before; eauto; rewrite ?Forall_map; [assumption|].
      constructor; [cbn [fst]; lia|]. eapply Forall_impl; [|exact Hb]. cbn. intros; lia. }
    rewrite Hbf. cbn [rbind]. rewrite Hc. cbn [rbind]. pose proof H4 as [B1 B2]. destruct (bf_unset_ok (s_bf ds) idx ltac:(lia)) as (bf & -> & C1 & C2). cbn [rbind]. eexists. split; [reflexivity|].
    apply forall2_split in H5 as (sa & y & sb & E & El & F1 & _ & F2). rewrite E.
    assert (T1 : ztake (zlen pre) (sa ++ y :: sb) = sa). { unfold ztake, zlen. rewrite Nat2Z.id, <- El, firstn_app, Nat.sub_diag, firstn_all, firstn_O. apply app_nil_r. }
    assert (T2 : zdrop (zlen pre + 1) (sa ++ y :: sb) = sb). { unfold zdrop, zlen. replace (Z.to_nat (Z.of_nat (length pre) + 1)) with (length sa + 1)%nat by lia. rewrite skipn_app. rewrite skipn_all2 by lia. replace (length sa + 1 - length sa)%nat with 1%nat by lia. reflexivity. }
    rewrite T1, T2. unfold reps, set_slots. cbn [s_key s_size s_builder s_bf s_slots]. split; [assumption|]. split; [assumption|]. split; [assumption|]. split.
    - split; [lia|]. intros j Hj. rewrite C2 by lia. rewrite andb_true_iff, B2 by lia. rewrite !map_app, !in_app_iff. cbn [map fst In]. rewrite negb_true_iff, Z.eqb_neq.
      split; [intros [A [B|[B|B]]]; auto; congruence|]. intros A. assert (j <> idx).
      { rewrite Forall_forall in Ha, Hb. intros ->. destruct A as [A|A]; apply in_map_iff in A as (z & Z1 & Z2); [specialize (Ha _ Z2)|specialize (Hb _ Z2)]; lia. }
      intuition.
    - now apply Forall2_app.
  Qed.

  Hypothesis HP : forall p, P p -> p = proto_prefix (Some p).

  Lemma split_slot c kids idx : wfk c kids -> In idx (map fst kids) -> exists pre t post, kids = pre ++ (idx, t) :: post.
  Proof.
    intros _ H. apply in_map_iff in H as ([i t] & Hi & H). cbn in Hi. subst i. apply in_split in H as (pre & post & ->). eauto.
  Qed.
  Lemma split_free c kids idx : wfk c kids -> ~ In idx (map fst kids) -> exists pre post, kids = pre ++ post /\
    Forall (fun x => fst x < idx) pre /\ Forall (fun x => idx < fst x) post.
  Proof.
    intros (_ & Hs & _) H. destruct (sorted_split fst kids idx Hs) as (a & b & -> & Ha & Hb). exists a, b. split; [reflexivity|]. split; [assumption|].
    rewrite Forall_forall in *. intros x Hx. specialize (Hb x Hx). assert (fst x <> idx); [|lia]. intros E. apply H. rewrite map_app, in_app_iff. right. rewrite <- E. now apply in_map.
  Qed.
  Lemma slice_spec c ds pre t post idx : reps ds (pre ++ (idx, t) :: post) -> wfk c (pre ++ (idx, t) :: post) -> bf_before (s_bf ds) idx = Ok (zlen pre).
  Proof.
    intros (_ & _ & _ & H4 & _) Hwf. pose proof (wfk_range _ _ Hwf) as HR. pose proof (wfk_mid _ _ _ _ _ Hwf) as (_ & _ & Ha & Hb & R).
    replace (zlen pre) with (zlen (map fst pre)) by (unfold zlen; now rewrite map_length). destruct Hwf as (_ & Hs & _). rewrite map_app in *. eapply bitmap_before; eauto; rewrite ?Forall_map; [assumption|].
    constructor; [cbn [fst]; lia|]. eapply Forall_impl; [|exact Hb]. cbn. intros; lia.
  Qed.

  (** The trie a sub-shard with a single value collapses to. *)
  Definition collapse (kids : list (Z * trie)) : trie :=
    match kids with [(_, Leaf k v)] => Leaf k v | _ => Branch kids end.
  Lemma collapse_entries kids : entries (collapse kids) = entriesk kids.
  Proof. destruct kids as [|[i [k v|kk]] [|y r]]; reflexivity. Qed.
  Lemma collapse_wf c kids : wfk c kids -> (1 <= length (entriesk kids))%nat -> wf c (collapse kids).
  Proof.
    intros H Hl. assert (N : forall x, In x kids -> (1 <= length (entries (snd x)))%nat /\ (forall kk, snd x = Branch kk -> (2 <= length (entries (snd x)))%nat)).
    { intros x Hx. destruct H as (_ & _ & H). rewrite Forall_forall in H. destruct (H x Hx) as [_ Hw]. destruct (snd x) as [k v|kk]; [split; [cbn; lia|discriminate]|].
      apply wf_branch in Hw as [Hw _]. cbn [entries]. fold (entriesk kk). split; [lia|auto]. }
    destruct kids as [|[i t] r]; [cbn in Hl; lia|]. destruct r as [|[j u] r].
    - destruct t as [k v|kk]; cbn [collapse].
      + apply (wfk_mid c [] i (Leaf k v) []) in H as (_ & H & _). exact H.
      + apply wf_branch. split; [|assumption]. destruct (N _ (or_introl eq_refl)) as [_ N2]. specialize (N2 kk eq_refl). cbn [snd] in N2. rewrite entriesk_cons, app_length. lia.
    - assert (E : collapse ((i, t) :: (j, u) :: r) = Branch ((i, t) :: (j, u) :: r)) by (destruct t; reflexivity). rewrite E. apply wf_branch. split; [|assumption].
      destruct (N _ (or_introl eq_refl)) as [N1 _]. destruct (N _ (or_intror (or_introl eq_refl))) as [N2 _]. cbn [snd] in *. rewrite !entriesk_cons, !app_length. lia.
  Qed.

  Lemma swap_spec fuel : forall w c ds kids k value, (Z.to_nat (L - c) < fuel)%nat -> 0 <= c -> reps ds kids -> wfk c kids -> k <> [] -> prefixed k value ->
    swap_post w c kids k (option_map content value) (fst (swapValue hash fuel w (mkHB (hash k) c) k value ds)) (snd (swapValue hash fuel w (mkHB (hash k) c) k value ds)).
  Proof.
    induction fuel as [|fuel IH]; intros w c ds kids k value Hf Hc Hr Hwf Hk Hpv; [lia|].
    assert (HcL : c + lg <= L) by apply Hwf. pose proof (slot_range k c) as Rg.
    cbn [swapValue]. unfold bind, get_shard, lift, ret, throw, has, sliceIndex. destruct (reps_lg _ _ Hr) as [Etl _]. rewrite Etl. rewrite next_hash by assumption.
    destruct (bitmap_has (s_bf ds) (map fst kids) (slot_of k c)) as (b & Eb & Hb); [apply Hr|assumption|]. rewrite Eb. destruct b; cbn [negb].
    2:{ (* free slot *)
      assert (Hnin : ~ In (slot_of k c) (map fst kids)) by (intros Hi; apply Hb in Hi; discriminate).
      assert (Hnk : ~ In k (keysk kids)) by (intros Hi; apply Hnin; now apply (wfk_slot c kids k)).
      destruct (split_free _ _ _ Hwf Hnin) as (pre & post & -> & Ha & Hp). unfold upd_shard. destruct value as [l|]; cbn [option_map].
      - destruct (insert_spec c pre post ds k l _ Hr Hwf Hk eq_refl Ha Hp) as (ds' & -> & Hr'). cbn [fst snd].
        exists (pre ++ (slot_of k c, Leaf k (content l)) :: post). split; [assumption|]. split; [apply wfk_insert; auto; cbn; intros ? [<-|[]]; reflexivity|].
        exists None. split; [now split|]. cbn [upd]. split; [exact Hnk|]. rewrite !entriesk_app, entriesk_cons. cbn [entries app]. symmetry. apply Permutation_middle.
      - cbn [insert fst snd]. exists (pre ++ post). split; [assumption|]. split; [assumption|]. split; [reflexivity|]. left. auto. }
    (* occupied slot *)
    assert (Hin : In (slot_of k c) (map fst kids)) by (now apply Hb). destruct (split_slot _ _ _ Hwf Hin) as (pre & t & post & ->).
    rewrite (slice_spec c ds pre t post _ Hr Hwf). pose proof (wfk_mid _ _ _ _ _ Hwf) as (Kt & Wt & _ & _ & _). destruct (wfk_other _ _ _ _ _ k Hwf eq_refl) as [Npre Npost].
    destruct (get_child_spec w ds pre (slot_of k c) t post (c + lg) Hr Wt HP) as [(ch & Hch & Eg)|[Eg Hff]]; rewrite Eg.
    2:{ cbn [fst snd]. eexists. split; [eassumption|]. split; [assumption|]. split; [reflexivity|]. right. right. auto. }
    pose proof (reps_set ds pre _ t t post (SShard ch) Hr Hch) as Hr1. set (ds1 := set_child (SShard ch) (zlen pre) ds) in *.
    assert (Hds1 : forall x, set_child x (zlen pre) ds1 = set_child x (zlen pre) ds) by (intros x; apply set_child_twice).
    destruct t as [k0 v0|kk].
    - (* a value *)
      destruct (isValue_leaf ch k0 v0 Wt Hch) as (Ev & Ek & l0 & El & Ec & Ep). rewrite Ev, Ek, El. destruct (bytes_eqb k0 k) eqn:E0.
      + apply bytes_eqb_eq in E0. rewrite E0 in Hch, Hr, Hwf, Kt, Wt, Hr1, Ek, Ep |- *. destruct value as [l|]; cbn [option_map]; unfold upd_shard.
        * cbn [fst snd]. rewrite Hds1. exists (pre ++ (slot_of k c, Leaf k (content l)) :: post). split.
          { eapply reps_set; [exact Hr|]. cbn [rep]. destruct ch; cbn [set_val s_key s_val] in *. split; [assumption|exists l; auto]. }
          split; [eapply wfk_set; [exact Hwf|exact Hk|cbn; intros ? [<-|[]]; reflexivity]|]. exists (Some v0). split; [split; [cbn [option_map]; now rewrite Ec|exact Ep]|]. cbn [upd].
          exists (entriesk pre ++ entriesk post). rewrite !entriesk_app, !entriesk_cons. cbn [entries app]. split; symmetry; apply Permutation_middle.
        * destruct (rm_spec c pre post ds1 _ _ Hr1 Hwf) as (ds' & -> & Hr'). cbn [fst snd]. exists (pre ++ post). split; [assumption|]. split; [now apply wfk_remove in Hwf|].
          exists (Some v0). split; [split; [cbn [option_map]; now rewrite Ec|exact Ep]|]. cbn [upd]. rewrite !entriesk_app, !entriesk_cons. cbn [entries app]. symmetry. apply Permutation_middle.
      + assert (Hne : k0 <> k) by (intros ->; rewrite bytes_eqb_refl in E0; discriminate).
        assert (Hslot0 : slot_of k0 c = slot_of k c) by (apply Kt; now left).
        assert (Hnk : ~ In k (keysk (pre ++ (slot_of k c, Leaf k0 v0) :: post))).
        { rewrite keysk_app, keysk_cons, !in_app_iff. cbn. intuition. }
        assert (Hk0in : In k0 (keysk (pre ++ (slot_of k c, Leaf k0 v0) :: post))) by (rewrite keysk_app, keysk_cons, !in_app_iff; cbn; auto).
        destruct value as [l|]; cbn [option_map].
        2:{ cbn [fst snd]. eexists. split; [exact Hr1|]. split; [exact Hwf|]. split; [reflexivity|]. left. auto. }
        (* fork *)
        destruct Hr as (R1 & R2 & R3 & R4 & R5). rewrite R2. unfold NewShard, NewShardValue. rewrite makeShard_W. cbn [hb_consumed].
        set (fresh := SetCidBuilder (s_builder ds) (mkShard W None zeros [] None [])).
        assert (Hfresh : reps fresh []) by (apply (reps_new (s_builder ds) R3); apply makeShard_W). unfold newConsumedHashBits.
        destruct (Z_le_gt_dec (c + lg + lg) L) as [Hroom|Hno].
        2:{ assert (Edeep : swapValue hash fuel w (mkHB (hash k) (c + lg)) k (Some l) fresh = (Err ETooDeep, fresh)).
            { destruct fuel as [|fuel']; [lia|]. cbn [swapValue]. unfold bind, get_shard, lift. destruct (reps_lg _ _ Hfresh) as [-> _]. rewrite next_hash_end by lia. reflexivity. }
            rewrite Edeep. cbn [fst snd]. eexists. split; [exact Hr1|]. split; [exact Hwf|]. split; [reflexivity|]. right. left. split; [reflexivity|]. split; [discriminate|]. split; [exact Hnk|].
            exists k0. split; [exact Hk0in|]. apply agree_step; [|now symmetry]. intros j J1 J2. nia. }
        pose proof (IH w (c + lg) fresh [] k (Some l) ltac:(lia) ltac:(lia) Hfresh (wfk_nil _ Hroom) Hk Hpv) as S1.
        destruct (swapValue hash fuel w (mkHB (hash k) (c + lg)) k (Some l) fresh) as [r1 fresh1]. cbn [fst snd option_map] in S1. destruct S1 as (kids1 & A1 & A2 & A3).
        destruct r1 as [o1|e1| |]; [| |contradiction|contradiction].
        2:{ cbn [fst snd]. destruct A3 as [_ [A3|[A3|A3]]]; [destruct A3 as (_ & A3 & _); discriminate|destruct A3 as (_ & _ & _ & k' & [] & _)|]. destruct A3 as [-> A3].
            eexists. split; [exact Hr1|]. split; [exact Hwf|]. split; [reflexivity|]. right. right. auto. }
        destruct A3 as (o1' & _ & A3). destruct o1' as [o1'|]; cbn [upd entriesk flat_map] in A3.
        { destruct A3 as (r & A3 & _). apply Permutation_nil in A3. discriminate. }
        destruct A3 as [_ A3].
        pose proof (IH w (c + lg) fresh1 kids1 k0 (Some l0) ltac:(lia) ltac:(lia) A1 A2 Wt Ep) as S2.
        destruct (swapValue hash fuel w (mkHB (hash k0) (c + lg)) k0 (Some l0) fresh1) as [r2 fresh2]. cbn [fst snd option_map] in S2. destruct S2 as (kids2 & B1 & B2 & B3).
        assert (Hk1 : forall k', In k' (keysk kids1) <-> k' = k).
        { intros k'. unfold keysk. apply (Permutation_map fst) in A3. cbn in A3. split; intros Hi; [apply (Permutation_in _ A3) in Hi; destruct Hi as [|[]]; auto|]. apply (Permutation_in _ (Permutation_sym A3)). now left. }
        destruct r2 as [o2|e2| |]; [| |contradiction|contradiction].
        2:{ cbn [fst snd]. eexists. split; [exact Hr1|]. split; [exact Hwf|]. split; [reflexivity|].
            destruct B3 as [_ [B3|[B3|B3]]]; [destruct B3 as (_ & B3 & _); discriminate| |].
            - destruct B3 as (-> & _ & _ & k' & Hk' & Hag). apply Hk1 in Hk'. subst k'. right. left. split; [reflexivity|]. split; [discriminate|]. split; [exact Hnk|]. exists k0. split; [exact Hk0in|].
              apply agree_step; [now apply agree_sym|now symmetry].
            - destruct B3 as [-> B3]. right. right. auto. }
        destruct B3 as (o2' & _ & B3). destruct o2' as [o2'|]; cbn [upd] in B3.
        { exfalso. destruct B3 as (r & B3 & _). assert (In k0 (keysk kids1)) by (unfold keysk; apply (Permutation_map fst) in B3; apply (Permutation_in _ (Permutation_sym B3)); now left). apply Hk1 in H. congruence. }
        destruct B3 as [_ B3]. unfold upd_shard. cbn [fst snd]. rewrite Hds1.
        exists (pre ++ (slot_of k c, Branch kids2) :: post).
        assert (P2 : Permutation (entriesk kids2) [(k0, v0); (k, content l)]) by (eapply Permutation_trans; [exact B3|]; rewrite Ec; apply perm_skip, A3).
        split; [eapply reps_set; [split; [exact R1|]; split; [exact R2|]; split; [exact R3|]; split; [exact R4|exact R5]|now apply rep_branch]|].
        split.
        { eapply wfk_set; [exact Hwf| |].
          - apply wf_branch. split; [|exact B2]. apply Permutation_length in P2. rewrite P2. cbn. lia.
          - intros k' Hk'. unfold keys in Hk'. cbn [entries] in Hk'. fold (entriesk kids2) in Hk'. apply (Permutation_map fst) in P2. apply (Permutation_in _ P2) in Hk'. cbn in Hk'. destruct Hk' as [<-|[<-|[]]]; auto. }
        exists None. split; [now split|]. cbn [upd]. split; [exact Hnk|]. rewrite !entriesk_app, !entriesk_cons. cbn [entries]. fold (entriesk kids2). rewrite P2. cbn [app].
        rewrite <- Permutation_middle. rewrite <- Permutation_middle. rewrite <- Permutation_middle. apply perm_swap.
    - (* a sub-shard *)
      rewrite (isValue_branch ch kk Hch). apply rep_branch in Hch. apply wf_branch in Wt as [Wn Wk]. unfold on_child.
      assert (HroomL : c + lg + lg <= L) by apply Wk.
      pose proof (IH w (c + lg) ch kk k value ltac:(lia) ltac:(lia) Hch Wk Hk Hpv) as S1.
      destruct (swapValue hash fuel w (mkHB (hash k) (c + lg)) k value ch) as [r1 ch1]. cbn [fst snd] in S1. destruct S1 as (kk1 & A1 & A2 & A3).
      assert (Ent : forall t, entriesk (pre ++ (slot_of k c, t) :: post) = entriesk pre ++ entries t ++ entriesk post) by (intros t; now rewrite entriesk_app, entriesk_cons).
      destruct r1 as [o1|e1| |]; [| |contradiction|contradiction].
      2:{ rewrite Hds1. cbn [fst snd]. destruct A3 as [-> A3]. exists (pre ++ (slot_of k c, Branch kk) :: post). split; [eapply reps_set; [exact Hr|now apply rep_branch]|]. split; [assumption|]. split; [reflexivity|].
          assert (Hkeys : forall k', In k' (keysk (pre ++ (slot_of k c, Branch kk) :: post)) <-> In k' (keysk pre) \/ In k' (keysk kk) \/ In k' (keysk post)).
          { intros k'. rewrite keysk_app, keysk_cons, !in_app_iff. reflexivity. }
          destruct A3 as [(-> & B1 & B2)|[(-> & B1 & B2 & k' & B3 & B4)|[-> B1]]].
          - left. split; [reflexivity|]. split; [assumption|]. rewrite Hkeys. tauto.
          - right. left. split; [reflexivity|]. split; [assumption|]. split; [rewrite Hkeys; tauto|]. exists k'. split; [rewrite Hkeys; auto|].
            apply agree_step; [assumption|]. symmetry. apply Kt. exact B3.
          - right. right. auto. }
      destruct A3 as (o & Ho & Hu). rewrite Hds1.
      assert (HuC : forall t, Permutation (entries t) (entriesk kk1) -> upd k (option_map content value) o (entriesk (pre ++ (slot_of k c, Branch kk) :: post)) (entriesk (pre ++ (slot_of k c, t) :: post))).
      { intros t Ht. rewrite !Ent. apply upd_context; [exact Npre|exact Npost|]. cbn [entries]. fold (entriesk kk). eapply upd_perm; [exact Hu|]. now symmetry. }
      assert (HkC : forall t, entries t = entriesk kk1 -> forall k', In k' (keys t) -> slot_of k' c = slot_of k c).
      { intros t Ht k' Hk'. unfold keys in Hk'. rewrite Ht in Hk'. destruct (upd_keys _ _ _ _ _ Hu k' Hk') as [->|Hi]; [reflexivity|]. now apply Kt. }
      assert (Hdone : forall x t, rep x t -> entries t = entriesk kk1 -> wf (c + lg) t ->
        swap_post w c (pre ++ (slot_of k c, Branch kk) :: post) k (option_map content value) (Ok o1) (set_child x (zlen pre) ds)).
      { intros x t Hx Ht Hwt. exists (pre ++ (slot_of k c, t) :: post). split; [eapply reps_set; [exact Hr|exact Hx]|]. split; [eapply wfk_set; [exact Hwf|exact Hwt|now apply HkC]|].
        exists o. split; [exact Ho|]. apply HuC. now rewrite Ht. }
      pose proof (upd_length _ _ _ _ _ Hu) as Hlen. cbn [fst snd].
      destruct value as [l|]; cbn [option_map] in *.
      { apply (Hdone (SShard ch1) (Branch kk1)); [now apply rep_branch|reflexivity|]. apply wf_branch. split; [|assumption]. destruct o; lia. }
      assert (Hlen1 : (1 <= length (entriesk kk1))%nat) by (destruct o; [|contradiction]; lia).
      pose proof (collapse_wf _ _ A2 Hlen1) as Wc.
      assert (Hkeep : (forall i k1 v1, kk1 <> [(i, Leaf k1 v1)]) -> swap_post w c (pre ++ (slot_of k c, Branch kk) :: post) k None (Ok o1) (set_child (SShard ch1) (zlen pre) ds)).
      { intros Hn. apply (Hdone (SShard ch1) (Branch kk1)); [now apply rep_branch|reflexivity|]. assert (Ec : collapse kk1 = Branch kk1) by (destruct kk1 as [|[i [k1 v1|kk2]] [|]]; try reflexivity; exfalso; eapply Hn; reflexivity).
        now rewrite <- Ec. }
      assert (F2 : Forall2 (fun y x => rep x (snd y)) kk1 (s_slots ch1)) by apply A1.
      destruct (s_slots ch1) as [|x1 [|x2 sr]] eqn:Esl.
      + inversion F2; subst. cbn in Hlen1. lia.
      + inversion F2 as [|[i1 t1] ? kk1' ? Hx1 F3]; subst. inversion F3; subst. cbn [snd] in Hx1. destruct x1 as [slnk|sch].
        * destruct (reps_lg _ _ A1) as [_ Hpad]. unfold childLinkType. rewrite Hpad. destruct t1 as [k1 v1|kk2].
          -- destruct Hx1 as [(p & Hp & Hn) Hv]. cbn [collapse wf] in Wc. rewrite Hn, app_length, Hp. replace (_ <? _)%nat with false by lia.
             replace (pad + length k1 =? pad)%nat with false by (destruct k1; [congruence|cbn [length]; lia]). cbn [negb]. unfold upd_shard. cbn [fst snd]. rewrite set_child_twice.
             apply (Hdone (SLink slnk) (Leaf k1 v1)); [|reflexivity|exact Wc]. cbn [rep]. eauto.
          -- destruct Hx1 as (Hl & _). rewrite Hl. replace (pad <? pad)%nat with false by lia. rewrite Nat.eqb_refl. cbn [negb fst snd]. apply Hkeep. intros i k1 v1. discriminate.
        * destruct t1 as [k1 v1|kk2].
          -- cbn [collapse wf] in Wc. destruct (isValue_leaf sch k1 v1 Wc Hx1) as (-> & _). unfold upd_shard. cbn [fst snd]. rewrite set_child_twice. apply (Hdone (SShard sch) (Leaf k1 v1)); [exact Hx1|reflexivity|exact Wc].
          -- rewrite (isValue_branch sch kk2 Hx1). cbn [fst snd]. apply Hkeep. intros i k1 v1. discriminate.
      + destruct x1; cbn [fst snd]; apply Hkeep; intros i k1 v1 ->; inversion F2 as [|? ? ? ? ? F3]; inversion F3.
  Qed.

  (** Lookup. *)
  Lemma find_spec fuel : forall w c ds kids k, (Z.to_nat (L - c) < fuel)%nat -> 0 <= c -> reps ds kids -> wfk c kids -> k <> [] ->
    reps (snd (getValue fuel w (mkHB (hash k) c) k ds)) kids /\
    match fst (getValue fuel w (mkHB (hash k) c) k ds) with
    | Ok (Some l) => In (k, content l) (entriesk kids) /\ labelled k (lname l)
    | Err e => e = ENotExist /\ ~ In k (keysk kids) \/ e = EFetch /\ fetch_fails w
    | _ => False
    end.
  Proof.
    induction fuel as [|fuel IH]; intros w c ds kids k Hf Hc Hr Hwf Hk; [lia|].
    assert (HcL : c + lg <= L) by apply Hwf. pose proof (slot_range k c) as Rg.
    cbn [getValue]. unfold bind, get_shard, lift, ret, throw, has, sliceIndex. destruct (reps_lg _ _ Hr) as [Etl _]. rewrite Etl. rewrite next_hash by assumption.
    destruct (bitmap_has (s_bf ds) (map fst kids) (slot_of k c)) as (b & Eb & Hb); [apply Hr|assumption|]. rewrite Eb. destruct b.
    2:{ cbn [fst snd]. split; [assumption|]. left. split; [reflexivity|]. intros Hi. apply (wfk_slot c kids k Hwf) in Hi. apply Hb in Hi. discriminate. }
    assert (Hin : In (slot_of k c) (map fst kids)) by (now apply Hb). destruct (split_slot _ _ _ Hwf Hin) as (pre & t & post & ->).
    rewrite (slice_spec c ds pre t post _ Hr Hwf). pose proof (wfk_mid _ _ _ _ _ Hwf) as (Kt & Wt & _ & _ & _). destruct (wfk_other _ _ _ _ _ k Hwf eq_refl) as [Npre Npost].
    destruct (get_child_spec w ds pre (slot_of k c) t post (c + lg) Hr Wt HP) as [(ch & Hch & Eg)|[Eg Hff]]; rewrite Eg; [|cbn [fst snd]; auto].
    pose proof (reps_set ds pre _ t t post (SShard ch) Hr Hch) as Hr1.
    assert (Hkeys : forall k', In k' (keysk (pre ++ (slot_of k c, t) :: post)) <-> In k' (keysk pre) \/ In k' (keys t) \/ In k' (keysk post)) by (intros k'; rewrite keysk_app, keysk_cons, !in_app_iff; reflexivity).
    destruct t as [k0 v0|kk].
    - destruct (isValue_leaf ch k0 v0 Wt Hch) as (Ev & Ek & l0 & El & Ec & Ep). rewrite Ev, Ek, El. destruct (bytes_eqb k0 k) eqn:E0; cbn [fst snd]; (split; [assumption|]).
      + apply bytes_eqb_eq in E0. rewrite E0 in Ep |- *. rewrite Ec. split; [|exact Ep]. rewrite entriesk_app, entriesk_cons, !in_app_iff. cbn. auto.
      + left. split; [reflexivity|]. rewrite Hkeys. cbn. intros [H|[[H|[]]|H]]; [tauto| |tauto]. subst k0. rewrite H, bytes_eqb_refl in E0. discriminate.
    - rewrite (isValue_branch ch kk Hch). apply rep_branch in Hch. apply wf_branch in Wt as [_ Wk]. unfold on_child.
      assert (HroomL : c + lg + lg <= L) by apply Wk.
      pose proof (IH w (c + lg) ch kk k ltac:(lia) ltac:(lia) Hch Wk Hk) as S1.
      destruct (getValue fuel w (mkHB (hash k) (c + lg)) k ch) as [r1 ch1]. cbn [fst snd] in S1. destruct S1 as [A1 A2].
      assert (Hr2 : reps (set_child (SShard ch1) (zlen pre) (set_child (SShard ch) (zlen pre) ds)) (pre ++ (slot_of k c, Branch kk) :: post)) by (eapply reps_set; [exact Hr1|now apply rep_branch]).
      destruct r1 as [[l|]|e| |]; try contradiction; cbn [fst snd]; (split; [assumption|]).
      + destruct A2 as [A2 A3]. split; [|exact A3]. rewrite entriesk_app, entriesk_cons, !in_app_iff. auto.
      + destruct A2 as [[-> A2]|A2]; [|auto]. left. split; [reflexivity|]. rewrite Hkeys. unfold keys. cbn [entries]. fold (entriesk kk). fold (keysk kk). tauto.
  Qed.

  (** Different names stored together differ in the usable bits. *)
  Lemma agree_next c k k' : agree c k k' -> agree (c + lg) k k'.
  Proof.
    intros H j H1 H2. specialize (H (j + 1) ltac:(lia)). replace (c + (j + 1) * lg) with (c + lg + j * lg) in H by lia. apply H. lia.
  Qed.
  Lemma wfk_disagree_aux c kids k k' : Forall (fun x => forall c, wf c (snd x) -> In k (keys (snd x)) -> In k' (keys (snd x)) -> ~ agree c k k') kids ->
    wfk c kids -> In k (keysk kids) -> In k' (keysk kids) -> ~ agree c k k'.
  Proof.
    intros HI Hwf H H' Ha. assert (HcL : c + lg <= L) by apply Hwf. apply keys_in_kids in H as (x & Hx & Hk). apply keys_in_kids in H' as (x' & Hx' & Hk').
    assert (Es : slot_of k c = slot_of k' c) by (specialize (Ha 0 ltac:(lia) ltac:(lia)); now replace (c + 0 * lg) with c in Ha by lia).
    pose proof Hwf as (_ & Hs & HF). rewrite Forall_forall in HF. destruct (HF x Hx) as [F1 F2]. destruct (HF x' Hx') as [F3 _].
    assert (E : x = x').
    { apply ssorted_nodup in Hs. assert (Ef : fst x = fst x') by (rewrite <- (F1 _ Hk), <- (F3 _ Hk'); assumption). clear - Hs Hx Hx' Ef.
      induction kids as [|y r IH]; [destruct Hx|]. cbn [map] in Hs. inversion Hs; subst. destruct Hx as [->|Hx]; destruct Hx' as [->|Hx']; auto.
      - exfalso. apply H1. rewrite Ef. now apply in_map.
      - exfalso. apply H1. rewrite <- Ef. now apply in_map. }
    subst x'. rewrite Forall_forall in HI. apply (HI x Hx (c + lg) F2 Hk Hk'). now apply agree_next.
  Qed.
  Lemma wf_disagree k k' t : k <> k' -> forall c, wf c t -> In k (keys t) -> In k' (keys t) -> ~ agree c k k'.
  Proof.
    intros Hn. induction t as [k0 v|kids IH] using trie_ind'; intros c Hwf H H'.
    - cbn in H, H'. destruct H as [H|[]]. destruct H' as [H'|[]]. congruence.
    - apply wf_branch in Hwf as [_ Hwf]. exact (wfk_disagree_aux c kids k k' IH Hwf H H').
  Qed.
  Lemma wfk_disagree c kids k k' : k <> k' -> wfk c kids -> In k (keysk kids) -> In k' (keysk kids) -> ~ agree c k k'.
  Proof. intros Hn. apply wfk_disagree_aux. apply Forall_forall. intros x _ c'. now apply wf_disagree. Qed.
End Rep.
