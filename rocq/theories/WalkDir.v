(** The parallel enumeration of a directory. *)
From Coq Require Import Sorting.Sorted Sorting.Permutation.
From Verif Require Import Base Pb PbProofs FSNode FSNodeProofs Dag DagProofs Builder HashBits Bitfield SpecHash HashProofs Hamt SpecHamt HamtExec HamtRep HamtNode HamtRun HamtFacts Walk WalkProofs.

Fixpoint tsize (t : trie) : nat := match t with Leaf _ _ => 1 | Branch kids => S (list_sum (map (fun x => tsize (snd x)) kids)) end.

Section Dir.
  Variables (hash : bytes -> bytes) (L lg W : Z) (P : prefix -> Prop).
  Hypothesis Hlg : 3 <= lg <= 10.
  Hypothesis HW : Logtwo W = Ok lg.
  Hypothesis Hhash : forall k, 8 * zlen (hash k) = L.
  Hypothesis HP : forall p, P p -> p = proto_prefix (Some p).
  Notation wf := (wf hash L lg).
  Notation wfk := (wfk hash L lg).
  Notation reps := (reps W P).
  Notation rep := (rep W P).
  Notation ser := (ser W P).
  Notation ser_link := (ser_link W P).
  Notation pad := (pad W).

  Lemma load_branch U c kids nd : wfk c kids -> ser U (Branch kids) nd -> exists ds, NewHamtFromDag nd = Ok ds /\ maxpadlen ds = pad.
  Proof.
    intros H Hs. destruct (load_ser hash L lg W P Hlg HW Hhash U kids c nd H Hs HP) as (ds & E & R & _).
    exists ds. split; [assumption|]. destruct R as (_ & E1 & _). unfold maxpadlen, pad. now rewrite E1.
  Qed.
  Lemma npad_ser U c kids nd : wfk c kids -> ser U (Branch kids) nd -> npad nd = pad.
  Proof. intros H Hs. destruct (load_branch U c kids nd H Hs) as (ds & E & E2). unfold npad. now rewrite E. Qed.
  Lemma wfk_in c kids i t : wfk c kids -> In (i, t) kids -> wf (c + lg) t /\ (forall k, In k (keys t) -> slot_of hash lg k c = i).
  Proof. intros (_ & _ & H) Hi. rewrite Forall_forall in H. specialize (H _ Hi). cbn in H. tauto. Qed.
  Lemma link_len i k nm : 0 <= i < W -> nm = hexpad pad i ++ k -> length nm = (pad + length k)%nat /\ skipn pad nm = k.
  Proof.
    intros R ->. destruct (slot_names W i R) as (_ & E & _). fold pad in *. rewrite app_length, E. split; [reflexivity|].
    rewrite <- E at 1. now rewrite skipn_app, skipn_all, Nat.sub_diag.
  Qed.

  (** *** Sub-shards are distinct *)

  Lemma slot_name_inj i j : 0 <= i < W -> 0 <= j < W -> hexpad pad i = hexpad pad j -> i = j.
  Proof.
    intros Hi Hj E. destruct (slot_names W i Hi) as (_ & _ & A). destruct (slot_names W j Hj) as (_ & _ & B). fold pad in A, B.
    destruct (Z.lt_trichotomy i j) as [H|[H|H]]; [|assumption|]; exfalso; eapply name_lt_irrefl.
    - specialize (A j ltac:(lia)). rewrite E in A. exact A.
    - specialize (B i ltac:(lia)). rewrite E in B. exact B.
  Qed.
  Lemma ser_inj U t : forall c c' t' nd, wf c t -> wf c' t' -> ser U t nd -> ser U t' nd -> match t, t' with Branch _, Branch _ => t = t' | _, _ => True end.
  Proof.
    induction t as [k v|kids IH] using trie_ind'; intros c c' [k' v'|kids'] nd H H' E E'; try exact I. apply (wf_branch hash L lg Hlg) in H as [_ H], H' as [_ H'].
    f_equal. apply (ser_branch lg W P Hlg) in E as (p & ls & -> & _ & _ & F). apply (ser_branch lg W P Hlg) in E' as (p' & ls' & E' & _ & _ & F'). injection E' as _ _ <-.
    pose proof (wfk_range hash L lg W Hlg HW Hhash _ _ H) as R. pose proof (wfk_range hash L lg W Hlg HW Hhash _ _ H') as R'. destruct H as (_ & _ & H), H' as (_ & _ & H').
    revert kids' F' H' R'. induction F as [|[i t] l r ls (A1 & A2 & A3) F IHr]; intros kids' F' H' R'; inversion F' as [|[i' t'] ? r' ? (B1 & B2 & B3) F2]; subst; [reflexivity|]. cbn [map fst] in *.
    inversion IH as [|? ? I1 I2]; subst. inversion H as [|? ? [_ W1] W2]; subst. inversion H' as [|? ? [_ W1'] W2']; subst. inversion R as [|? ? R1 R2]; subst. inversion R' as [|? ? R1' R2']; subst. cbn [snd fst] in *.
    assert (Ei : hexpad pad i = hexpad pad i' /\ tkey t = tkey t').
    { destruct (slot_names W i R1) as (_ & La & _). destruct (slot_names W i' R1') as (_ & Lb & _). fold pad in La, Lb. apply bits_value_app_inj; congruence. }
    destruct Ei as [Ei Ek]. apply slot_name_inj in Ei; [|assumption|assumption]. subst i'. rewrite (IHr I2 W2 R2 r' F2 W2' R2'). f_equal. f_equal.
    destruct t as [k v|kk], t' as [k' v'|kk']; cbn [tkey wf] in *.
    - subst k'. f_equal. cbn [HamtRep.ser] in A3, B3. destruct v, v'. cbn in *. congruence.
    - congruence.
    - congruence.
    - exact (I1 _ _ (Branch kk') _ W1 W1' A3 B3).
  Qed.
  (** A shard block below a trie. *)
  Definition origin (U : node -> Prop) (t : trie) (z : node) : Prop :=
    exists c' kids, ser U (Branch kids) z /\ wf c' (Branch kids) /\ incl (keys (Branch kids)) (keys t) /\ (tsize (Branch kids) <= tsize t)%nat.
  Lemma origin_in U kids i t z : In (i, t) kids -> origin U t z ->
    exists c' kk, ser U (Branch kk) z /\ wf c' (Branch kk) /\ incl (keys (Branch kk)) (keys (Branch kids)) /\ (tsize (Branch kk) < tsize (Branch kids))%nat.
  Proof.
    intros Hi (c' & kk & E1 & E2 & E3 & E4). exists c', kk. split; [assumption|]. split; [assumption|]. split.
    - intros k Hk. apply E3 in Hk. unfold keys in *. cbn [entries]. apply in_map_iff in Hk as (e & <- & He). apply in_map. apply in_flat_map. exists (i, t). auto.
    - cbn [tsize]. cbn [tsize] in E4. apply in_split in Hi as (a & b & ->). rewrite map_app, list_sum_app. cbn [map snd]. rewrite list_sum_cons. lia.
  Qed.
  Lemma gather U {X} (f : X -> list node) c kids xs : wfk c kids -> Forall2 (fun y x => NoDup (f x) /\ forall z, In z (f x) -> origin U (snd y) z) kids xs ->
    NoDup (flat_map f xs) /\ forall z, In z (flat_map f xs) -> exists y, In y kids /\ origin U (snd y) z.
  Proof.
    intros Hw HF. induction HF as [|[i t] x r xs [N1 O1] HF IH]; [split; [constructor|intros z []]|].
    pose proof (wfk_mid hash L lg W Hlg HW Hhash c [] i t r Hw) as (K1 & K2 & _). destruct (IH (wfk_remove hash L lg Hlg c [] (i, t) r Hw)) as [N2 O2]. cbn [snd flat_map] in *. split.
    - apply nodup_app; [exact N1|exact N2|]. intros z Hz Hz'. destruct (O1 _ Hz) as (c1 & k1 & E1 & W1 & S1 & _). destruct (O2 _ Hz') as ([j u] & Hj & (c2 & k2 & E2 & W2 & S2 & _)). cbn [snd] in *.
      pose proof (ser_inj U (Branch k1) _ _ (Branch k2) z W1 W2 E1 E2) as J. cbv beta iota in J. injection J as ->.
      destruct (wf_nonempty hash L lg Hlg _ _ W2) as [k Hk]. apply S1 in Hk as Ha. apply S2 in Hk as Hb.
      destruct (wfk_other hash L lg W Hlg HW Hhash c [] i t r k Hw (K1 _ Ha)) as [_ N]. apply N. unfold keysk, entriesk. unfold keys in Hb. apply in_map_iff in Hb as (e & <- & He). apply in_map. apply in_flat_map. exists (j, u). auto.
    - intros z Hz. apply in_app_iff in Hz as [Hz|Hz]; [exists (i, t); split; [now left|exact (O1 _ Hz)]|]. destruct (O2 _ Hz) as (y & Hy & Ho). exists y. split; [now right|exact Ho].
  Qed.

  (** *** Stored shards *)

  Definition lfacts (U : node -> Prop) (w : world) (t : trie) (l : link) : Prop :=
    lentries pad l = entries t /\ lgood w (ngood w) pad l /\ NoDup (lsubs pad l) /\ forall z, In z (lsubs pad l) -> origin U t z.
  Lemma leaf_facts U w k v l : k <> [] -> length (lname l) = (pad + length k)%nat -> skipn pad (lname l) = k -> content l = v -> lfacts U w (Leaf k v) l.
  Proof.
    intros Hk El Es Ec. unfold lfacts, lentries, lsubs, lgood. rewrite El, Es. destruct k as [|k0 k]; [congruence|]. assert (E0 : (pad + length (k0 :: k) =? pad)%nat = false) by (apply Nat.eqb_neq; cbn; lia). rewrite E0.
    split; [|split; [split; [lia|intros E; apply Nat.eqb_neq in E0; lia]|split; [constructor|intros z []]]]. unfold pentry, centry. unfold content in Ec. now rewrite Ec.
  Qed.
  Lemma node_facts (U : node -> Prop) w t : (forall n, U n -> stored w n = true) -> forall c l, wf c t -> ser U t (lto l) ->
    match t with Leaf _ _ => True | Branch _ => length (lname l) = pad -> lfacts U w t l end.
  Proof.
    intros HU. induction t as [k v|kids IH] using trie_ind'; intros c l Hw0 Hs; [exact I|]. intros En. pose proof Hw0 as Hw. apply (wf_branch hash L lg Hlg) in Hw as [_ Hw].
    unfold lfacts, lentries, lsubs, lgood. rewrite En, Nat.eqb_refl. generalize dependent (lto l). clear l En. intros nd Hs.
    pose proof (npad_ser U c kids nd Hw Hs) as Hp. destruct (load_branch U c kids nd Hw Hs) as (ds & El & _). pose proof (ser_U lg W P Hlg U _ _ Hs) as Hu. pose proof Hs as Hs'.
    apply (ser_branch lg W P Hlg) in Hs as (p & ls & E & _ & _ & HF).
    assert (HL : Forall2 (fun y l => lfacts U w (snd y) l) kids ls).
    { pose proof (wfk_range hash L lg W Hlg HW Hhash c kids Hw) as R. destruct Hw as (_ & _ & Hw). clear - HF IH Hw R Hlg HW Hhash HP. induction HF as [|[i t] l r ls (A1 & A2 & A3) HF IHr]; [constructor|].
      inversion IH as [|? ? I1 I2]; subst. inversion Hw as [|? ? [_ W1] W2]; subst. cbn [map fst] in R. inversion R as [|? ? R1 R2]; subst. constructor; [|now apply IHr]. cbn [fst snd] in *.
      destruct (link_len i _ _ R1 A1) as [B1 B2]. destruct t as [k v|kk].
      - cbn [wf] in W1. apply leaf_facts; [exact W1|exact B1|exact B2|]. unfold content. cbn [HamtRep.ser] in A3. rewrite A2, A3. now destruct v.
      - apply (I1 _ _ W1 A3). rewrite B1. cbn. lia. }
    destruct (gather U (lsubs pad) c kids ls Hw) as [G1 G2].
    { clear - HL. induction HL as [|y l r ls (A1 & A2 & A3 & A4) HL IHr]; constructor; auto. }
    assert (En : nentries nd = entriesk kids).
    { subst nd. cbn [nentries]. rewrite Hp. clear - HL. induction HL as [|y l r ls (A1 & A2 & A3 & A4) HL IHr]; [reflexivity|]. destruct y as [i t]. cbn [flat_map]. rewrite entriesk_cons, IHr. f_equal. exact A1. }
    assert (Es : nsubs nd = flat_map (lsubs pad) ls) by (subst nd; cbn [nsubs]; rewrite Hp; reflexivity).
    assert (Eg : ngood w nd).
    { subst nd. cbn [ngood]. split; [eexists; exact El|]. apply fold_all. rewrite Hp. clear - HL. induction HL as [|y l r ls (A1 & A2 & A3 & A4) HL IHr]; constructor; [exact A2|exact IHr]. }
    split; [exact En|]. split; [split; [lia|intros _; split; [now apply HU|exact Eg]]|]. rewrite Es.
    assert (O : forall z, In z (flat_map (lsubs pad) ls) -> exists c' kk, ser U (Branch kk) z /\ wf c' (Branch kk) /\ incl (keys (Branch kk)) (keys (Branch kids)) /\ (tsize (Branch kk) < tsize (Branch kids))%nat).
    { intros z Hz. destruct (G2 z Hz) as ([i t] & Hi & Ho). exact (origin_in U kids i t z Hi Ho). }
    split.
    - constructor; [|exact G1]. intros Hz. destruct (O _ Hz) as (c' & kk & E1 & E2 & E3 & E4). pose proof (ser_inj U (Branch kids) _ _ (Branch kk) nd Hw0 E2 Hs' E1) as J. cbv beta iota in J. injection J as ->. lia.
    - intros z [<-|Hz].
      + exists c, kids. split; [exact Hs'|]. split; [exact Hw0|]. split; [apply incl_refl|lia].
      + destruct (O _ Hz) as (c' & kk & E1 & E2 & E3 & E4). exists c', kk. split; [exact E1|]. split; [exact E2|]. split; [exact E3|lia].
  Qed.

  (** *** Shards in memory *)

  Definition sfacts (U : node -> Prop) (w : world) (t : trie) (x : slot shard) : Prop :=
    slot_entries pad x = entries t /\ slot_good w pad x /\ NoDup (slot_subs pad x) /\ forall z, In z (slot_subs pad x) -> origin U t z.
  Lemma slots_facts U w c kids s : wfk c kids -> s_size s = W -> Forall2 (fun y x => sfacts U w (snd y) x) kids (s_slots s) ->
    sentries s = entriesk kids /\ sgood w s /\ NoDup (ssubs s) /\ forall z, In z (ssubs s) -> exists y, In y kids /\ origin U (snd y) z.
  Proof.
    intros Hw Es HF. assert (Em : maxpadlen s = pad) by (unfold maxpadlen, HamtRep.pad; now rewrite Es). rewrite sentries_eq, ssubs_eq, sgood_eq, Em, Es. split.
    { clear - HF. induction HF as [|[i t] x r xs (A1 & A2 & A3 & A4) HF IH]; [reflexivity|]. cbn [flat_map]. rewrite entriesk_cons, IH. f_equal. exact A1. }
    split.
    { rewrite (makeShard_W lg W Hlg HW). split; [now eexists|]. clear - HF. induction HF as [|y x r xs (A1 & A2 & A3 & A4) HF IH]; constructor; assumption. }
    apply (gather U (slot_subs pad) c); [exact Hw|]. clear - HF. induction HF as [|y x r xs (A1 & A2 & A3 & A4) HF IH]; constructor; auto.
  Qed.
  Lemma rep_facts (U : node -> Prop) w t : (forall n, U n -> stored w n = true) -> forall c x, wf c t -> rep U x t -> sfacts U w t x.
  Proof.
    intros HU. induction t as [k v|kids IH] using trie_ind'; intros c x Hw Hr.
    - destruct x as [l|s]; cbn [HamtRep.rep] in Hr.
      + destruct Hr as [(p & Hp & En) Ec]. cbn [wf] in Hw. apply leaf_facts; [exact Hw|now rewrite En, app_length, Hp| |exact Ec]. rewrite En, <- Hp. now rewrite skipn_app, skipn_all, Nat.sub_diag.
      + destruct Hr as (Ek & l & El & Ec & _). unfold sfacts. cbn [slot_entries slot_subs slot_good entries]. rewrite El, Ek. unfold pentry, centry. unfold content in Ec. rewrite Ec. split; [reflexivity|]. split; [exact I|]. split; [constructor|intros z []].
    - destruct x as [l|s].
      + cbn [HamtRep.rep] in Hr. destruct Hr as (En & _ & Hs). exact (node_facts U w (Branch kids) HU c l Hw Hs En).
      + apply (rep_branch lg W P Hlg) in Hr. destruct Hr as ((Ek & Ev) & Es & _ & _ & Hr). unfold sfacts. cbn [slot_entries slot_subs slot_good]. rewrite Ev. apply (wf_branch hash L lg Hlg) in Hw as [_ Hw].
        destruct (slots_facts U w c kids s Hw Es) as (F1 & F2 & F3 & F4).
        { destruct Hw as (_ & _ & Hw). clear - Hr IH Hw. induction Hr as [|[i t] x ks sl Hx _ IHr]; [constructor|]. inversion IH as [|? ? I1 I2]; subst. inversion Hw as [|? ? [_ W1] W2]; subst. constructor; [exact (I1 _ _ W1 Hx)|now apply IHr]. }
        split; [exact F1|]. split; [exact F2|]. split; [exact F3|]. intros z Hz. destruct (F4 z Hz) as ([i t] & Hi & Ho). destruct (origin_in U kids i t z Hi Ho) as (c' & kk & E1 & E2 & E3 & E4). exists c', kk. split; [exact E1|]. split; [exact E2|]. split; [exact E3|lia].
  Qed.
  Lemma reps_facts (U : node -> Prop) w s kids c : (forall n, U n -> stored w n = true) -> wfk c kids -> reps U s kids ->
    sentries s = entriesk kids /\ NoDup (ssubs s) /\ sgood w s.
  Proof.
    intros HU Hw (_ & Es & _ & _ & Hr). destruct (slots_facts U w c kids s Hw Es) as (F1 & F2 & F3 & _); [|auto].
    destruct Hw as (_ & _ & Hw). clear - Hr Hw HU Hlg HW Hhash HP. induction Hr as [|[i t] x ks sl Hx _ IHr]; [constructor|]. inversion Hw as [|? ? [_ W1] W2]; subst. constructor; [exact (rep_facts U w t HU _ _ W1 Hx)|now apply IHr].
  Qed.
End Dir.

(** ** Results *)

Lemma cnt_in a x : In x a <-> (1 <= cnt a x)%nat.
Proof. unfold cnt. rewrite (count_occ_In entry_dec). lia. Qed.
Lemma nodup_cnt a : NoDup a <-> forall x, (cnt a x <= 1)%nat.
Proof. apply NoDup_count_occ. Qed.
Lemma nodup_map_incl {A B} (f : A -> B) a b : NoDup a -> incl a b -> NoDup (map f b) -> NoDup (map f a).
Proof.
  intros N I H. assert (J : forall x y, In x b -> In y b -> f x = f y -> x = y).
  { clear - H. induction b as [|z b IH]; [intros x y []|]. cbn in H. inversion H as [|? ? H1 H2]; subst. intros x y [<-|Hx] [<-|Hy] E; [reflexivity| | |now apply IH].
    - exfalso. apply H1. rewrite E. now apply in_map.
    - exfalso. apply H1. rewrite <- E. now apply in_map. }
  induction N as [|x a Hx N IH]; [constructor|]. cbn. constructor.
  - intros Hi. apply in_map_iff in Hi as (y & E & Hy). apply Hx. rewrite <- (J y x); [assumption| | |assumption]; apply I; [now right|now left].
  - apply IH. intros y Hy. apply I. now right.
Qed.
Lemma named_key l : map fst (map named l) = map lname l.
Proof. rewrite map_map. reflexivity. Qed.

(** What the enumeration needs to know about a shard. *)
Definition facts (d : dir) (s : shard) (w : world) : Prop := exists es, listing d es /\ sentries s = es /\ NoDup (ssubs s) /\ sgood w s.

Lemma inv_facts hash L lg W (P : prefix -> Prop) : 3 <= lg <= 10 -> Logtwo W = Ok lg -> (forall k, 8 * zlen (hash k) = L) -> (forall p, P p -> p = proto_prefix (Some p)) ->
  forall U d s w, inv hash L lg W P U d (s, w) -> facts d s w.
Proof.
  intros H1 H2 H3 H4 U d s w (HU & kids & Hr & Hw & Hd). cbn [fst snd] in *. exists (entriesk kids).
  destruct (reps_facts hash L lg W P H1 H2 H3 H4 U w s kids 0 HU Hw Hr) as (F1 & F2 & F3). split; [split; [exact (wfk_nodup hash _ lg W H1 H2 H3 _ _ Hw)|exact Hd]|]. auto.
Qed.

Lemma facts_sound s w d mayc m t : facts d s w -> wsteps w mayc (walk_start m s) t ->
  NoDup (map lname (w_out t)) /\ forall l, In l (w_out t) -> d (lname l) = Some (lsize l, lto l).
Proof.
  intros (es & [N E] & Es & _ & _) H. pose proof (run_below w mayc m s t H) as B. rewrite <- Es in *.
  assert (B' : forall x, (cnt (map named (w_out t)) x <= cnt (sentries s) x)%nat) by (intros x; specialize (B x); lia).
  assert (I : incl (map named (w_out t)) (sentries s)) by (intros x Hx; apply cnt_in; apply cnt_in in Hx; specialize (B' x); lia).
  split.
  - rewrite <- named_key. apply (nodup_map_incl fst _ (sentries s)); [|assumption|assumption]. apply nodup_cnt. intros x. specialize (B' x).
    apply nodup_map_inv in N. pose proof (proj1 (nodup_cnt _) N x). lia.
  - intros l Hl. apply E. apply I. change (lname l, (lsize l, lto l)) with (named l). now apply in_map.
Qed.
Lemma never_cancelled w m s t : wsteps w false (walk_start m s) t -> w_cancel t = false.
Proof. intros H. remember (walk_start m s) as s0. induction H as [|s1 t u H1 IH H2]; subst; [reflexivity|]. specialize (IH eq_refl). destruct H2; cbn in *; congruence. Qed.
Lemma facts_complete s w d m t links : facts d s w -> wsteps w false (walk_start m s) t -> enum_returns t links None -> listing d (map named links).
Proof.
  intros (es & HL & Es & N & _) H (O & -> & He). pose proof (never_cancelled _ _ _ _ H) as C.
  assert (G : grp_done t = false). { unfold grp_done. rewrite C. destruct He as [He|[He _]]; [rewrite <- He; reflexivity|congruence]. }
  pose proof (run_exact w false m s t N H (over_clean t O G)) as X. pose proof (over_pend m t (run_proto w false m s t H) O G) as Pd. rewrite <- Es in HL.
  assert (PM : Permutation (map named (w_out t)) (sentries s)). { apply (Permutation_count_occ entry_dec). intros x. specialize (X x). rewrite Pd in X. unfold cnt in X. cbn in X. lia. }
  destruct HL as [L1 L2]. split.
  - eapply Permutation_NoDup; [|exact L1]. apply Permutation_map. now symmetry.
  - intros k e. rewrite <- L2. split; intros Hi; eapply Permutation_in; try exact Hi; [assumption|now symmetry].
Qed.
Lemma facts_errors s w d m t links e : facts d s w -> wsteps w false (walk_start m s) t -> enum_returns t links (Some e) -> e = EFetch /\ exists x, w_getok w x = false.
Proof.
  intros (es & _ & _ & _ & G) H (O & -> & He). destruct (run_good w false m s t G H) as (_ & _ & I3).
  specialize (I3 (never_cancelled _ _ _ _ H)). destruct He as [He|[_ He]]; [|discriminate]. rewrite <- He in I3. exact I3.
Qed.
Lemma facts_no_crash s w d mayc m t : facts d s w -> wsteps w mayc (walk_start m s) t -> ~ walk_crashed t.
Proof.
  intros (es & _ & _ & _ & G) H (k & r & Hi & Hr). destruct (run_good w mayc m s t G H) as (I1 & _). rewrite Forall_forall in I1. specialize (I1 _ Hi). cbn in I1. destruct Hr as [-> | ->], I1 as [[] _].
Qed.

Section Reached.
  Variables (hash : bytes -> bytes) (n : nat) (W : Z) (b : option prefix).
  Hypothesis Hn : (2 <= n)%nat.
  Hypothesis Hh : forall k, length (hash k) = n.
  Hypothesis Hv : valid_width W.

  Lemma reached_facts s w d : reached hash W b s w d -> facts d s w.
  Proof.
    intros HR. destruct (setup hash n W b Hn Hh Hv) as (lg & H1 & H2 & H3 & H4 & H5 & H6).
    destruct (reached_inv hash n W b lg s w d H1 H2 H3 H4 H5 HR) as [U HI]. exact (inv_facts hash _ lg W _ H1 H2 H3 H4 U d s w HI).
  Qed.
  Lemma walk_sound s w d mayc m t : reached hash W b s w d -> wsteps w mayc (walk_start m s) t ->
    NoDup (map lname (w_out t)) /\ forall l, In l (w_out t) -> d (lname l) = Some (lsize l, lto l).
  Proof. intros HR. apply facts_sound. now apply reached_facts. Qed.
  Lemma walk_complete s w d m t links : reached hash W b s w d -> wsteps w false (walk_start m s) t -> enum_returns t links None -> listing d (map named links).
  Proof. intros HR. apply facts_complete. now apply reached_facts. Qed.
  Lemma walk_errors s w d m t links e : reached hash W b s w d -> wsteps w false (walk_start m s) t -> enum_returns t links (Some e) -> e = EFetch /\ exists x, w_getok w x = false.
  Proof. intros HR. eapply facts_errors. eapply reached_facts. exact HR. Qed.
  Lemma walk_no_crash s w d mayc m t : reached hash W b s w d -> wsteps w mayc (walk_start m s) t -> ~ walk_crashed t.
  Proof. intros HR. eapply facts_no_crash. eapply reached_facts. exact HR. Qed.
End Reached.

Lemma walk_progress w mayc m root t : (0 < m)%nat -> wsteps w mayc (walk_start m root) t -> walk_over t \/ walk_crashed t \/ exists u, wstep w mayc t u.
Proof. intros Hm H. exact (progress w mayc m t (run_proto w mayc m root t H) Hm). Qed.
Lemma walk_terminates w mayc m root : exists bound, forall k t, wsteps_n w mayc k (walk_start m root) t -> (k <= bound)%nat.
Proof.
  exists (weight (walk_start m root)). intros k t H. assert (A : (k + weight t <= weight (walk_start m root))%nat); [|lia].
  remember (walk_start m root) as s0. induction H as [|k s1 t u H1 IH H2]; [lia|]. specialize (IH Heqs0). apply step_weight in H2. lia.
Qed.
Lemma walk_complete' hash n W b s w d m t links : (2 <= n)%nat -> (forall k, length (hash k) = n) -> valid_width W -> reached hash W b s w d ->
  wsteps w false (walk_start m s) t -> enum_returns t links None -> listing d (map named links).
Proof. intros Hn Hh Hv. now apply walk_complete with (n := n) (b := b). Qed.
Lemma walk_sound' hash n W b s w d mayc m t : (2 <= n)%nat -> (forall k, length (hash k) = n) -> valid_width W -> reached hash W b s w d ->
  wsteps w mayc (walk_start m s) t -> NoDup (map lname (w_out t)) /\ forall l, In l (w_out t) -> d (lname l) = Some (lsize l, lto l).
Proof. intros Hn Hh Hv HR. now apply walk_sound with (n := n) (b := b) (d := d) (hash := hash) (W := W) (s := s) (w := w) (mayc := mayc) (m := m). Qed.
Lemma walk_errors' hash n W b s w d m t links e : (2 <= n)%nat -> (forall k, length (hash k) = n) -> valid_width W -> reached hash W b s w d ->
  wsteps w false (walk_start m s) t -> enum_returns t links (Some e) -> e = EFetch /\ exists x, w_getok w x = false.
Proof. intros Hn Hh Hv HR. now apply walk_errors with (n := n) (b := b) (d := d) (hash := hash) (W := W). Qed.
Lemma walk_no_crash' hash n W b s w d mayc m t : (2 <= n)%nat -> (forall k, length (hash k) = n) -> valid_width W -> reached hash W b s w d ->
  wsteps w mayc (walk_start m s) t -> ~ walk_crashed t.
Proof. intros Hn Hh Hv HR. now apply walk_no_crash with (n := n) (b := b) (d := d) (hash := hash) (W := W). Qed.
