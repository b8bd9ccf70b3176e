(** Runs of programs; the links a program has in hand. *)
From Verif Require Import Base Pb FSNode Dag Builder HashBits Bitfield Hamt DagProofs HeapHamt HeapRep HeapOps HeapGet HeapSwap HeapRun HeapRead HeapWalk HeapNode SpecHeap HeapClient HeapStep HeapAll.

Definition quiet (bs : list obs) : Prop := Forall (fun b => stops b = false) bs.
Section End_.
Variable hash : bytes -> bytes.

Theorem run_agree (T : Tag) ops : forall st vs L R, srel st vs L R -> fst (orun hash ops st) = fst (vrun hash ops vs) /\
  (quiet (fst (orun hash ops st)) -> exists L' R', srel (snd (orun hash ops st)) (snd (vrun hash ops vs)) L' R' /\ incl R R' /\ still R (o_h st) (o_h (snd (orun hash ops st)))).
Proof.
  induction ops as [|op ops IH]; intros st vs L R S.
  - cbn. split; [reflexivity|]. intros _. exists L, R. split; [exact S|]. split; [apply incl_refl|]. intros z l _ H. exact H.
  - cbn [orun vrun]. destruct (step_agree hash op st vs L R S) as (E & N). destruct (ostep hash op st) as [b st1], (vstep hash op vs) as [b' vs1]. cbn [fst snd] in *. subst b'. destruct (stops b) eqn:Eb.
    { split; [reflexivity|]. intros Q. inversion Q. congruence. }
    destruct (N eq_refl) as (L1 & R1 & S1 & I1 & St1 & _). destruct (IH _ _ _ _ S1) as (E2 & N2). destruct (orun hash ops st1) as [bs st2], (vrun hash ops vs1) as [bs' vs2]. cbn [fst snd] in *. split; [congruence|].
    intros Q. inversion Q; subst. destruct (N2 ltac:(assumption)) as (L2 & R2 & S2 & I2 & St2). exists L2, R2. split; [exact S2|]. split; [eapply incl_tran; eassumption|]. intros z l Hz Hl. apply St2; [apply I1, Hz|]. now apply St1.
Qed.
Lemma start_rel w : @srel nowatch (ostart w) (vstart w) [] [].
Proof.
  constructor; cbn; auto.
  - constructor; cbn.
    + intros [|i] o H; discriminate.
    + intros [|i] j o o' N H; discriminate.
    + intros [|i] j o o' N H; discriminate.
    + intros [|i] j o o' H; discriminate.
    + intros [|i] o H; discriminate.
    + intros z [].
    + intros la H. discriminate.
  - intros la H. discriminate.
Qed.
(** C81 *)
Theorem same_observations w ops : fst (orun hash ops (ostart w)) = fst (vrun hash ops (vstart w)).
Proof. apply (run_agree nowatch ops _ _ [] [] (start_rel w)). Qed.

Lemma reached_rel w ops1 bs1 st1 : orun hash ops1 (ostart w) = (bs1, st1) -> quiet bs1 -> exists vs L R, @srel nowatch st1 vs L R.
Proof. intros E Q. destruct (run_agree nowatch ops1 _ _ [] [] (start_rel w)) as (_ & N). rewrite E in N. destruct (N Q) as (L & R & S & _). eauto. Qed.

(** Links that the program made, or got from Swap or Take, do not change. *)
Theorem frozen_links w ops1 bs1 st1 ops2 bs2 st2 la src : orun hash ops1 (ostart w) = (bs1, st1) -> quiet bs1 -> orun hash ops2 st1 = (bs2, st2) -> quiet bs2 ->
  In (la, src) (o_links st1) -> frozen src -> exists l, nth_error (h_links (o_h st1)) la = Some l /\ nth_error (h_links (o_h st2)) la = Some l.
Proof.
  intros E1 Q1 E2 Q2 Hi Hf. destruct (reached_rel _ _ _ _ E1 Q1) as (vs & L & R & S). destruct (run_agree nowatch ops2 _ _ _ _ S) as (_ & N). rewrite E2 in N. destruct (N Q2) as (L' & R' & _ & _ & St).
  pose proof (sr_froz _ _ _ _ S _ _ Hi Hf) as Hr. pose proof (li_B _ _ _ (sr_inv _ _ _ _ S) _ Hr) as B. apply nth_error_Some in B. destruct (nth_error (h_links (o_h st1)) la) as [l|] eqn:El; [|congruence]. exists l. split; [reflexivity|]. apply St; assumption.
Qed.

(** Every link keeps its size and its target. *)
Lemma vstep_links op vs : exists m, v_links (snd (vstep hash op vs)) = v_links vs ++ m.
Proof.
  assert (Same : forall l : list link, exists m, l = l ++ m) by (intros l; exists []; now rewrite app_nil_r).
  assert (Add : forall x (l : list link), exists m, add_val x l = l ++ m) by (intros [x|] l; [now exists [x]|apply Same]).
  destruct vs as [w ds ns ls]. destruct op; cbn [vstep];
    repeat match goal with
    | |- context [let (_, _) := ?x in _] => destruct x
    | |- context [match ?x with _ => _ end] => destruct x
    end; cbn [snd v_links]; auto; try (eexists; reflexivity).
Qed.
Lemma vrun_links ops : forall vs, exists m, v_links (snd (vrun hash ops vs)) = v_links vs ++ m.
Proof.
  induction ops as [|op ops IH]; intros vs; [exists []; now rewrite app_nil_r|]. cbn [vrun]. destruct (vstep_links op vs) as (m & Em). destruct (vstep hash op vs) as [b vs1]. cbn [snd] in Em. destruct (stops b); [cbn [snd]; eauto|].
  destruct (IH vs1) as (m2 & E2). destruct (vrun hash ops vs1) as [bs vs2]. cbn [snd] in *. exists (m ++ m2). rewrite E2, Em, app_assoc. reflexivity.
Qed.
Lemma ostep_links op st : exists m, o_links (snd (ostep hash op st)) = o_links st ++ m.
Proof.
  assert (Same : forall l : list (laddr * source), exists m, l = l ++ m) by (intros l; exists []; now rewrite app_nil_r).
  assert (Add : forall src x (l : list (laddr * source)), exists m, add_link src x l = l ++ m) by (intros src [x|] l; [now exists [(x, src)]|apply Same]).
  destruct st as [h w ds ns ls]. destruct op; cbn [ostep];
    repeat match goal with
    | |- context [let (_, _) := ?x in _] => destruct x
    | |- context [match ?x with _ => _ end] => destruct x
    end; cbn [snd o_links]; auto; try (eexists; reflexivity).
Qed.
Lemma orun_links ops : forall st, exists m, o_links (snd (orun hash ops st)) = o_links st ++ m.
Proof.
  induction ops as [|op ops IH]; intros vs; [exists []; now rewrite app_nil_r|]. cbn [orun]. destruct (ostep_links op vs) as (m & Em). destruct (ostep hash op vs) as [b vs1]. cbn [snd] in Em. destruct (stops b); [cbn [snd]; eauto|].
  destruct (IH vs1) as (m2 & E2). destruct (orun hash ops vs1) as [bs vs2]. cbn [snd] in *. exists (m ++ m2). rewrite E2, Em, app_assoc. reflexivity.
Qed.
Lemma forall2_len {A B} (P : A -> B -> Prop) l l' : Forall2 P l l' -> length l = length l'.
Proof. intros H. induction H; cbn; congruence. Qed.
Theorem links_kept w ops1 bs1 st1 ops2 bs2 st2 la src : orun hash ops1 (ostart w) = (bs1, st1) -> quiet bs1 -> orun hash ops2 st1 = (bs2, st2) -> quiet bs2 -> In (la, src) (o_links st1) ->
  exists l1 l2, nth_error (h_links (o_h st1)) la = Some l1 /\ nth_error (h_links (o_h st2)) la = Some l2 /\ lsize l2 = lsize l1 /\ lto l2 = lto l1.
Proof.
  intros E1 Q1 E2 Q2 Hi. destruct (reached_rel _ _ _ _ E1 Q1) as (vs & L & R & S). destruct (run_agree nowatch ops2 _ _ _ _ S) as (_ & N). rewrite E2 in N. destruct (N Q2) as (L' & R' & S' & _). cbn [snd] in S'.
  apply In_nth_error in Hi as (k & Hk). pose proof (forall2_nth _ _ _ k (sr_links _ _ _ _ S)) as H1. rewrite Hk in H1. destruct (nth_error (v_links vs) k) as [l|] eqn:El; [|contradiction].
  destruct (vrun_links ops2 vs) as (m & Em). destruct (orun_links ops2 st1) as (m' & Em'). rewrite E2 in Em'. cbn [snd] in Em'.
  pose proof (forall2_nth _ _ _ k (sr_links _ _ _ _ S')) as H2. rewrite Em, Em' in H2. rewrite !nth_error_app1 in H2 by (apply nth_error_Some; congruence). rewrite Hk, El in H2.
  destruct H1 as (l1 & A1 & B1 & C1), H2 as (l2 & A2 & B2 & C2). cbn [fst] in *. exists l1, l2. repeat split; congruence.
Qed.

(** A link from Find keeps its name at the end of the name it has. *)
Definition held (st : ostate) : Prop := forall la name, In (la, Found name) (o_links st) -> exists vs L R, @srel (watch la name) st vs L R.
Lemma found_step op h w ds ns ls b st' la name : ostep hash op (mkO h w ds ns ls) = (b, st') -> In (la, Found name) (o_links st') -> In (la, Found name) ls \/
  exists d a h2, op = HFindN d name /\ nth_error ds d = Some a /\ hFind hash w name a h = (Ok (Some la), h2) /\ st' = mkO h2 w ds ns (ls ++ [(la, Found name)]).
Proof.
  assert (Add : forall src x, src = Taken -> In (la, Found name) (add_link src x ls) -> In (la, Found name) ls).
  { intros src [x|] ->; [|auto]. cbn. intros H. apply in_app_iff in H as [H|[H|[]]]; [exact H|discriminate]. }
  destruct op as [l|p d l0|size b0|n|d b0|d nm l|d nm nd|d nm|d nm|d cb|d|l|n]; cbn [ostep].
  9:{ destruct (nth_error ds d) as [a|] eqn:Ea; [|intros E; injection E as _ <-; auto]. destruct (hFind hash w nm a h) as [[[x|]|e| |] h1] eqn:Ef; intros E; injection E as _ <-; cbn [o_links add_link]; auto.
      intros H. apply in_app_iff in H as [H|[H|[]]]; [auto|]. injection H as -> ->. right. exists d, a, h1. auto. }
  all: repeat match goal with
    | |- context [let (_, _) := ?x in _] => destruct x
    | |- (match ?x with _ => _ end) = _ -> _ => destruct x
    end; intros E; injection E as _ <-; cbn [o_links]; auto; try (intros H; left; eapply Add; [|exact H]; reflexivity).
  all: intros H; apply in_app_iff in H as [H|H]; [auto|].
  - destruct H as [H|[]]. discriminate.
  - apply in_map_iff in H as (z & Ez & _). discriminate.
  - apply in_map_iff in H as (z & Ez & _). discriminate.
Qed.
Lemma held_step op st b st' vs L R : @srel nowatch st vs L R -> held st -> ostep hash op st = (b, st') -> stops b = false -> held st'.
Proof.
  intros S H E Nb la name Hi. destruct st as [h w ds ns ls]. destruct (found_step _ _ _ _ _ _ _ _ _ _ E Hi) as [Hl|(d & a & h2 & -> & Ha & Ef & ->)].
  - destruct (H la name Hl) as (vs1 & L1 & R1 & S1). destruct (@step_agree (watch la name) hash op _ _ _ _ S1) as (_ & N). rewrite E in N. destruct (N Nb) as (L2 & R2 & S2 & _). cbn [snd] in S2. eauto.
  - destruct vs as [w0 vds vns vls]. pose proof (sr_w _ _ _ _ S) as Ew. cbn in Ew. subst w0. pose proof (@dirs_at nowatch _ _ _ _ d S) as Ad. cbn [o_dirs] in Ad. destruct (nth_error L d) as [o|] eqn:Hd; destruct Ad as (Ad & _); [|congruence]. rewrite Ha in Ad. injection Ad as ->.
    pose proof (@find_run nowatch (hfuel hash name) w (newHashBits hash name) name h w ds ns ls w vds vns vls L R d o S Hd) as Q. unfold hFind in Ef.
    destruct (getValue (hfuel hash name) w (newHashBits hash name) name (p_s o)) as [[r|e| |] s'].
    + destruct Q as (x & h3 & E3 & L' & S' & _ & Lk). rewrite Ef in E3. injection E3 as <- <-. destruct r as [l|]; [|contradiction]. destruct Lk as (Ls & I' & Tg).
      exists (mkV w (set_nth d s' vds) vns (vls ++ [l])), L', R. destruct S' as [A1 A2 A3 A4 A5 A6 A7 A8]. cbn [o_h o_w o_dirs o_nodes o_links v_w v_dirs v_nodes v_links] in *. constructor; cbn [o_h o_w o_dirs o_nodes o_links v_w v_dirs v_nodes v_links]; auto.
      * apply Forall2_app; [exact A6|]. constructor; [exact Ls|constructor].
      * intros la' src Hin Hf. apply in_app_iff in Hin as [Hin|[Hin|[]]]; [eauto|]. injection Hin as <- <-. destruct Hf; discriminate.
    + destruct Q as (h3 & E3 & _). congruence.
    + destruct Q as (h3 & E3). congruence.
    + destruct Q as (h3 & E3). congruence.
Qed.
Lemma held_run ops : forall st vs L R, @srel nowatch st vs L R -> held st -> quiet (fst (orun hash ops st)) -> held (snd (orun hash ops st)).
Proof.
  induction ops as [|op ops IH]; intros st vs L R S H Q; [exact H|]. cbn [orun] in *. destruct (@step_agree nowatch hash op st vs L R S) as (_ & N). destruct (ostep hash op st) as [b st1] eqn:Es. cbn [fst snd] in N.
  destruct (stops b) eqn:Eb; [cbn [fst] in Q; inversion Q; congruence|]. destruct (N eq_refl) as (L1 & R1 & S1 & _). pose proof (held_step op st b st1 vs L R S H Es Eb) as H1.
  specialize (IH _ _ _ _ S1 H1). destruct (orun hash ops st1) as [bs st2]. cbn [fst snd] in *. apply IH. now inversion Q.
Qed.
Theorem found_links w ops1 bs1 st1 ops2 bs2 st2 la name : orun hash ops1 (ostart w) = (bs1, st1) -> quiet bs1 -> orun hash ops2 st1 = (bs2, st2) -> quiet bs2 -> In (la, Found name) (o_links st1) ->
  exists l p, nth_error (h_links (o_h st2)) la = Some l /\ lname l = p ++ name.
Proof.
  intros E1 Q1 E2 Q2 Hi. pose proof (held_run ops1 _ _ _ _ (start_rel w)) as H. rewrite E1 in H. cbn [fst snd] in H. specialize (H ltac:(intros la' n' []) Q1). destruct (H la name Hi) as (vs & L & R & S).
  destruct (run_agree (watch la name) ops2 _ _ _ _ S) as (_ & N). rewrite E2 in N. destruct (N Q2) as (L' & R' & S' & _). destruct (sr_tag _ _ _ _ S' la eq_refl) as (l & p & A & B). eauto.
Qed.
End End_.
