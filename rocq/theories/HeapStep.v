(** Programs on objects and on values: the same observations. *)
From Verif Require Import Base Pb FSNode Dag Builder HashBits Bitfield Hamt DagProofs HeapHamt HeapRep HeapOps HeapGet HeapSwap HeapRun HeapRead HeapWalk HeapNode SpecHeap HeapClient.

Definition frozen (src : source) : Prop := src = Made \/ src = Taken.
(** A link in hand. *)
Definition lsame (h : heap) (la : laddr) (l : link) : Prop := exists l', nth_error (h_links h) la = Some l' /\ lsize l' = lsize l /\ lto l' = lto l.
Definition nsame (h : heap) (R : list laddr) (n : onode) (nd : node) : Prop := let '(p, d, las) := n in exists ls, nd = NProto p d ls /\ Forall2 (lat h) las ls /\ incl las R.
Definition tagged {T : Tag} (h : heap) : Prop := forall la, t_la = Some la -> exists l p, nth_error (h_links h) la = Some l /\ lname l = p ++ t_key.
Record srel {T : Tag} (st : ostate) (vs : vstate) (L : list own) (R : list laddr) : Prop := {
  sr_w : o_w st = v_w vs;
  sr_inv : linv (o_h st) L R;
  sr_dirs : o_dirs st = map p_a L;
  sr_vals : v_dirs vs = map p_s L;
  sr_nodes : Forall2 (nsame (o_h st) R) (o_nodes st) (v_nodes vs);
  sr_links : Forall2 (fun x l => lsame (o_h st) (fst x) l) (o_links st) (v_links vs);
  sr_froz : forall la src, In (la, src) (o_links st) -> frozen src -> In la R;
  sr_tag : tagged (o_h st) }.
(** Links in [R] are as before. *)
Definition still (R : list laddr) (h h' : heap) : Prop := forall z l, In z R -> nth_error (h_links h) z = Some l -> nth_error (h_links h') z = Some l.

Lemma map_set {A B} (f : A -> B) i x l : map f (set_nth i x l) = set_nth i (f x) (map f l).
Proof. revert i. induction l as [|y l IH]; intros [|i]; cbn; congruence. Qed.
Lemma set_same {A} i (x : A) l : nth_error l i = Some x -> set_nth i x l = l.
Proof. revert i. induction l as [|y l IH]; intros [|i] H; cbn in *; try discriminate; [congruence|]. now rewrite IH. Qed.
Lemma nth_two {A B C} (f : A -> B) (g : A -> C) l i : nth_error (map f l) i = match nth_error l i with Some x => Some (f x) | None => None end.
Proof. revert i. induction l as [|y l IH]; intros [|i]; cbn; auto. Qed.

Section Step.
Context {TG : Tag}.
Lemma still_kept h h' F G R : kept h h' F G -> (forall z, In z R -> ~ In z G) -> still R h h'.
Proof. intros Hk D z l Hz Hl. apply (kp_l _ _ _ _ Hk); auto. Qed.
Lemma lsame_kept h h' F G la l : kept h h' F G -> lsame h la l -> lsame h' la l.
Proof. intros Hk (l' & E & A & B). destruct (kp_t _ _ _ _ Hk _ _ E) as (l2 & E2 & A2 & B2). exists l2. repeat split; congruence. Qed.
Lemma lsames_kept h h' F G (xs : list (laddr * source)) ls : kept h h' F G -> Forall2 (fun x l => lsame h (fst x) l) xs ls -> Forall2 (fun x l => lsame h' (fst x) l) xs ls.
Proof. intros Hk H. induction H; constructor; [eapply lsame_kept; eauto|assumption]. Qed.
Lemma lats_still h h' R las ls : still R h h' -> incl las R -> Forall2 (lat h) las ls -> Forall2 (lat h') las ls.
Proof. intros S HI H. induction H; constructor; [apply S; [apply HI; now left|assumption]|apply IHForall2; intros z Hz; apply HI; now right]. Qed.
Lemma nsames_still h h' R R' ns nds : still R h h' -> incl R R' -> Forall2 (nsame h R) ns nds -> Forall2 (nsame h' R') ns nds.
Proof.
  intros S HI H. induction H as [|[[p d] las] nd ns nds Hn _ IH]; constructor; [|assumption]. destruct Hn as (ls & -> & A & B). exists ls. split; [reflexivity|]. split; [eapply lats_still; eauto|]. intros z Hz. auto.
Qed.
Lemma tagged_kept h h' F G : kept h h' F G -> tagged h -> tagged h'.
Proof. intros Hk H la Hla. destruct (H la Hla) as (l & p & E & P). destruct (kp_k _ _ _ _ Hk la l Hla E) as (l' & E' & p' & P'); [eauto|]. eauto. Qed.
Lemma dirs_at st vs L R d : srel st vs L R -> match nth_error L d with
  | Some o => nth_error (o_dirs st) d = Some (p_a o) /\ nth_error (v_dirs vs) d = Some (p_s o)
  | None => nth_error (o_dirs st) d = None /\ nth_error (v_dirs vs) d = None
  end.
Proof. intros S. rewrite (sr_dirs _ _ _ _ S), (sr_vals _ _ _ _ S), !(nth_two _ p_a). destruct (nth_error L d); auto. Qed.

(** An operation on one directory. *)
Lemma srel_update h w ds ns ls ws vds vns vls L R d o h' w' s' F' G' K' V X : srel (mkO h w ds ns ls) (mkV ws vds vns vls) L R -> nth_error L d = Some o ->
  owns h' (p_a o) s' F' G' K' -> sub (length (h_shards h)) F' (p_F o) -> sub (length (h_links h)) G' (V ++ p_G o) -> sub (length (h_links h)) K' (p_K o) ->
  kept h h' (p_F o) (V ++ p_G o) -> (forall z, In z V -> (length (h_links h) <= z)%nat) -> sub (length (h_links h)) X (p_G o) -> (forall z, In z X -> ~ In z G') -> (forall z, In z X -> (z < length (h_links h'))%nat) ->
  srel (mkO h' w' ds ns ls) (mkV w' (set_nth d s' vds) vns vls) (set_nth d (mkOwn (p_a o) s' F' G' K') L) (X ++ R) /\ still R h h'.
Proof.
  intros S Hd O SF SG SK Hk HV SX HX BX. pose proof (sr_inv _ _ _ _ S) as I. cbn [o_h] in I.
  assert (U : unowned L V) by (intros j o' Hj z Hz; destruct (linv_bounds _ _ _ _ _ I Hj) as (_ & B2 & B3); split; intros Hi; [apply B2 in Hi|apply B3 in Hi]; apply HV in Hz; lia).
  assert (UR : forall z, In z V -> ~ In z R) by (intros z Hz Hr; apply (li_B _ _ _ I) in Hr; apply HV in Hz; lia).
  assert (St : still R h h') by (eapply still_kept; [exact Hk|]; intros z Hz Hi; apply in_app_iff in Hi as [Hi|Hi]; [exact (UR z Hi Hz)|exact (li_R _ _ _ I _ _ Hd z Hi Hz)]).
  split; [|exact St]. destruct S as [A1 A2 A3 A4 A5 A6 A7 A8]. cbn [o_h o_w o_dirs o_nodes o_links v_w v_dirs v_nodes v_links] in *. constructor; cbn [o_h o_w o_dirs o_nodes o_links v_w v_dirs v_nodes v_links].
  - reflexivity.
  - eapply linv_update; eassumption.
  - rewrite map_set. cbn [p_a]. rewrite A3. symmetry. apply set_same. rewrite (nth_two _ p_a), Hd. reflexivity.
  - rewrite map_set. cbn [p_s]. now rewrite A4.
  - eapply nsames_still; [exact St|apply incl_appr, incl_refl|exact A5].
  - eapply lsames_kept; [exact Hk|exact A6].
  - intros la src Hi Hf. apply in_or_app. right. eapply A7; eassumption.
  - eapply tagged_kept; eassumption.
Qed.
(** A link handed out. *)
Lemma srel_link h w ds ns ls ws vds vns vls L R x r src : srel (mkO h w ds ns ls) (mkV ws vds vns vls) L R ->
  match x, r with None, None => True | Some la, Some l => lsame h la l /\ (frozen src -> In la R) | _, _ => False end ->
  srel (mkO h w ds ns (add_link src x ls)) (mkV ws vds vns (add_val r vls)) L R.
Proof.
  intros [A1 A2 A3 A4 A5 A6 A7 A8] H. destruct x as [la|], r as [l|]; try contradiction; [|now constructor]. destruct H as (H1 & H2). cbn [o_h o_w o_dirs o_nodes o_links v_w v_dirs v_nodes v_links] in *.
  constructor; cbn [o_h o_w o_dirs o_nodes o_links v_w v_dirs v_nodes v_links add_link add_val]; auto.
  - apply Forall2_app; [exact A6|]. constructor; [exact H1|constructor].
  - intros la' src' Hi Hf. apply in_app_iff in Hi as [Hi|[Hi|[]]]; [eauto|]. injection Hi as <- <-. auto.
Qed.
(** New objects only. *)
Lemma srel_keep h w ds ns ls ws vds vns vls L R R' h' w' : srel (mkO h w ds ns ls) (mkV ws vds vns vls) L R -> kept h h' [] [] -> incl R R' -> (forall z, In z R' -> In z R \/ (length (h_links h) <= z < length (h_links h'))%nat) ->
  srel (mkO h' w' ds ns ls) (mkV w' vds vns vls) L R' /\ still R h h'.
Proof.
  intros [A1 A2 A3 A4 A5 A6 A7 A8] Hk HI HR. cbn [o_h o_w o_dirs o_nodes o_links v_w v_dirs v_nodes v_links] in *.
  assert (St : still R h h') by (eapply still_kept; [exact Hk|]; intros z _ []). split; [|exact St]. constructor; cbn [o_h o_w o_dirs o_nodes o_links v_w v_dirs v_nodes v_links]; auto.
  - eapply linv_keep; eassumption.
  - eapply nsames_still; eassumption.
  - eapply lsames_kept; eassumption.
  - intros la src Hi Hf. eauto.
  - eapply tagged_kept; eassumption.
Qed.
Lemma kept_new_links ls : forall h, exists las, new_links ls h = (Ok las, mkHeap (h_links h ++ ls) (h_shards h)) /\ kept h (mkHeap (h_links h ++ ls) (h_shards h)) [] [] /\
  (forall z, In z las -> (length (h_links h) <= z < length (h_links h ++ ls))%nat) /\ Forall2 (lat (mkHeap (h_links h ++ ls) (h_shards h))) las ls.
Proof.
  intros h. destruct (new_links_ok ls h) as (las & E & B & K & Hr). exists las. split; [exact E|]. split; [exact K|].
  assert (F2 : Forall2 (lat (mkHeap (h_links h ++ ls) (h_shards h))) las ls).
  { clear - Hr. revert Hr. generalize (mkHeap (h_links h ++ ls) (h_shards h)). intros h'. assert (Q : forall las' ls' F G K, hreps h' (map HLink las') (map SLink ls') F G K -> Forall2 (lat h') las' ls').
    { induction las' as [|la las' IH]; intros [|l ls'] F G K H; inversion H; subst; constructor; [assumption|eauto]. } apply Q. }
  split; [|exact F2]. intros z Hz. split; [auto|]. exact (lat_lt _ _ _ F2 z Hz).
Qed.
Lemma srel_node h w ds ns ls ws vds vns vls L R p d las l0 : srel (mkO h w ds ns ls) (mkV ws vds vns vls) L R -> Forall2 (lat h) las l0 -> incl las R ->
  srel (mkO h w ds (ns ++ [(p, d, las)]) ls) (mkV ws vds (vns ++ [NProto p d l0]) vls) L R.
Proof.
  intros [A1 A2 A3 A4 A5 A6 A7 A8] H HI. cbn [o_h o_w o_dirs o_nodes o_links v_w v_dirs v_nodes v_links] in *. constructor; cbn [o_h o_w o_dirs o_nodes o_links v_w v_dirs v_nodes v_links]; auto.
  apply Forall2_app; [exact A5|]. constructor; [|constructor]. exists l0. auto.
Qed.
Lemma srel_dir h w ds ns ls ws vds vns vls L R h' a s F K : srel (mkO h w ds ns ls) (mkV ws vds vns vls) L R -> kept h h' [] [] -> hrep h' a s F [] K -> NoDup F -> (forall z, In z F -> (length (h_shards h) <= z)%nat) -> (forall z, In z K -> In z R \/ (length (h_links h) <= z)%nat) ->
  srel (mkO h' w (ds ++ [a]) ns ls) (mkV w (vds ++ [s]) vns vls) (L ++ [mkOwn a s F [] K]) R /\ still R h h'.
Proof.
  intros S Hk Hr NF HF HK. destruct (srel_keep _ _ _ _ _ _ _ _ _ _ _ R h' w S Hk (incl_refl _) (fun z Hz => or_introl Hz)) as (S' & St). split; [|exact St].
  pose proof (sr_inv _ _ _ _ S) as I. pose proof (sr_inv _ _ _ _ S') as I'. destruct S' as [A1 A2 A3 A4 A5 A6 A7 A8]. cbn [o_h o_w o_dirs o_nodes o_links v_w v_dirs v_nodes v_links] in *. constructor; cbn [o_h o_w o_dirs o_nodes o_links v_w v_dirs v_nodes v_links]; auto.
  - eapply linv_add; [exact I|exact Hk| |exact HF|exact HK]. constructor; [exact Hr|exact NF|constructor|intros z []|exact (li_t _ _ _ I')].
  - rewrite map_app. cbn. congruence.
  - rewrite map_app. cbn. congruence.
Qed.

(** ** Operations on one directory *)
Definition linked (h : heap) (R : list laddr) (x : option laddr) (r : option link) : Prop := match x, r with None, None => True | Some la, Some l => lsame h la l /\ In la R | _, _ => False end.
Lemma linked_seen h R x r : linked h R x r -> seen_link h x = seen_val r.
Proof. destruct x as [la|], r as [l|]; try contradiction; [|reflexivity]. intros ((l' & E & A & B) & _). cbn. rewrite E. unfold view. congruence. Qed.

Lemma swap_run hash f w0 hv name v value V h w ds ns ls ws vds vns vls L R d o h1 w' : srel (mkO h w ds ns ls) (mkV ws vds vns vls) L R -> nth_error L d = Some o -> kept h h1 [] [] -> hval h1 name v value V -> (forall z, In z V -> (length (h_links h) <= z)%nat) ->
  match swapValue hash f w0 hv name value (p_s o) with
  | (Ok r, s') => exists x h2, hswapValue hash f w0 hv name v (p_a o) h1 = (Ok x, h2) /\ exists L' R', srel (mkO h2 w' ds ns ls) (mkV w' (set_nth d s' vds) vns vls) L' R' /\ still R h h2 /\ incl R R' /\ linked h2 R' x r
  | (Err e, s') => exists h2, hswapValue hash f w0 hv name v (p_a o) h1 = (Err e, h2) /\ exists L' R', srel (mkO h2 w' ds ns ls) (mkV w' (set_nth d s' vds) vns vls) L' R' /\ still R h h2 /\ incl R R'
  | (Panic, _) => exists h2, hswapValue hash f w0 hv name v (p_a o) h1 = (Panic, h2)
  | (Fuel, _) => exists h2, hswapValue hash f w0 hv name v (p_a o) h1 = (Fuel, h2)
  end.
Proof.
  intros S Hd Hk Hv HV. pose proof (li_own _ _ _ (sr_inv _ _ _ _ S) _ _ Hd) as O. cbn [o_h] in O. destruct (owns_bounds _ _ _ _ _ _ O) as (_ & BG & BK).
  assert (O1 : owns h1 (p_a o) (p_s o) (p_F o) (p_G o) (p_K o)) by (eapply owns_frame; [exact O|exact Hk| | |]; intros z _ []).
  assert (D : forall z, In z V -> ~ In z (p_G o) /\ ~ In z (p_K o)) by (intros z Hz; apply HV in Hz; split; intros Hi; [apply BG in Hi|apply BK in Hi]; lia).
  pose proof (kp_n _ _ _ _ Hk) as Bn. pose proof (kp_m _ _ _ _ Hk) as Bm.
  assert (Less : forall n m A B, (n <= m)%nat -> sub m A B -> sub n A B) by (intros n m A B Hnm HS z Hz; destruct (HS z Hz); [auto|right; lia]).
  assert (Fin : forall X h2 s', hstep X h1 (p_a o) (p_F o) (p_G o) (p_K o) V name v value s' h2 -> sub (length (h_links h1)) X (p_G o) -> (forall z, In z X -> (z < length (h_links h2))%nat) ->
    exists L', srel (mkO h2 w' ds ns ls) (mkV w' (set_nth d s' vds) vns vls) L' (X ++ R) /\ still R h h2).
  { intros X h2 s' ((F' & G' & K' & O' & SF & SG & SK & Hk2 & HX) & _) SX BX. eexists. eapply (srel_update h w ds ns ls ws vds vns vls L R d o h2 w' s' F' G' K' V X); [exact S|exact Hd|exact O'| | | | |exact HV| | |exact BX].
    - eapply Less; [exact Bn|exact SF].
    - eapply Less; [exact Bm|exact SG].
    - eapply Less; [exact Bm|exact SK].
    - eapply kept_trans; [eapply kept_weaken; [exact Hk|intros z []|intros z []]|exact Hk2|apply sub_refl|apply sub_refl].
    - eapply Less; [exact Bm|exact SX].
    - intros z Hz. apply HX, Hz. }
  pose proof (sim_cases _ _ _ _ (swap_all hash f TG w0 hv name value v V h1 (p_a o) (p_s o) (p_F o) (p_G o) (p_K o) O1 Hv D)) as Sm.
  destruct (swapValue hash f w0 hv name value (p_s o)) as [[r|e| |] s']; [| |exact Sm|exact Sm].
  - destruct Sm as (x & h2 & E & X & Hx & SX & St). exists x, h2. split; [exact E|]. destruct (Fin X h2 s' St SX (hval_bound _ _ _ _ _ Hx)) as (L' & S' & Sl). exists L', (X ++ R). split; [exact S'|]. split; [exact Sl|]. split; [apply incl_appr, incl_refl|].
    unfold hval in Hx. unfold linked. destruct x as [la|], r as [l|]; try contradiction; [|exact I]. destruct Hx as (-> & l' & E1 & E2 & E3 & _). split; [exists l'; auto|now left].
  - destruct Sm as (h2 & E & St). exists h2. split; [exact E|]. destruct (Fin [] h2 s' St) as (L' & S' & Sl); [intros z []|intros z []|]. exists L', R. split; [exact S'|]. split; [exact Sl|apply incl_refl].
Qed.

Lemma find_run f w0 hv name h w ds ns ls ws vds vns vls L R d o : srel (mkO h w ds ns ls) (mkV ws vds vns vls) L R -> nth_error L d = Some o ->
  match getValue f w0 hv name (p_s o) with
  | (Ok r, s') => exists x h2, hgetValue f w0 hv name (p_a o) h = (Ok x, h2) /\ exists L', srel (mkO h2 w ds ns ls) (mkV w (set_nth d s' vds) vns vls) L' R /\ still R h h2 /\
      match x, r with None, None => True | Some la, Some l => lsame h2 la l /\ @linv (watch la name) h2 L' R /\ @tagged (watch la name) h2 | _, _ => False end
  | (Err e, s') => exists h2, hgetValue f w0 hv name (p_a o) h = (Err e, h2) /\ exists L', srel (mkO h2 w ds ns ls) (mkV w (set_nth d s' vds) vns vls) L' R /\ still R h h2
  | (Panic, _) => exists h2, hgetValue f w0 hv name (p_a o) h = (Panic, h2)
  | (Fuel, _) => exists h2, hgetValue f w0 hv name (p_a o) h = (Fuel, h2)
  end.
Proof.
  intros S Hd. pose proof (li_own _ _ _ (sr_inv _ _ _ _ S) _ _ Hd) as O. cbn [o_h] in O.
  assert (Fin : forall h2 s' F' G' K', owns h2 (p_a o) s' F' G' K' -> sub (length (h_shards h)) F' (p_F o) -> sub (length (h_links h)) G' (p_G o) -> sub (length (h_links h)) K' (p_K o) -> kept h h2 (p_F o) (p_G o) ->
    srel (mkO h2 w ds ns ls) (mkV w (set_nth d s' vds) vns vls) (set_nth d (mkOwn (p_a o) s' F' G' K') L) R /\ still R h h2).
  { intros h2 s' F' G' K' O' SF SG SK Hk. apply (srel_update h w ds ns ls ws vds vns vls L R d o h2 w s' F' G' K' [] []); try assumption; intros z []. }
  pose proof (sim_cases _ _ _ _ (find_all f TG w0 hv name h (p_a o) (p_s o) (p_F o) (p_G o) (p_K o) O)) as Sm.
  destruct (getValue f w0 hv name (p_s o)) as [[r|e| |] s']; [| |exact Sm|exact Sm].
  - destruct Sm as (x & h2 & E & F' & G' & K' & X & O' & SF & SG & SK & Hk & Hx & IX & Tg). exists x, h2. split; [exact E|]. destruct (Fin h2 s' F' G' K' O' SF SG SK Hk) as (S' & Sl). eexists. split; [exact S'|]. split; [exact Sl|].
    unfold hval in Hx. destruct x as [la|], r as [l|]; try contradiction; [|exact I]. destruct Hx as (-> & l' & E1 & E2 & E3 & (p & E4) & _). split; [exists l'; auto|].
    set (o' := mkOwn (p_a o) s' F' G' K') in *. assert (Hd' : nth_error (set_nth d o' L) d = Some o') by (eapply set_nth_same, Hd).
    destruct (linv_watch TG h2 _ R d o' la (sr_inv _ _ _ _ S') Hd') as (key & I' & O2); [apply IX; now left|].
    destruct (Tg (watch la key) O2) as (_ & _ & _ & _ & _ & _ & Ek). specialize (Ek eq_refl). cbn in Ek. subst key. split; [exact I'|].
    intros lb Eb. cbn in Eb. injection Eb as <-. exists l', p. split; [exact E1|exact E4].
  - destruct Sm as (h2 & E & F' & G' & K' & O' & SF & SG & SK & Hk & _). exists h2. split; [exact E|]. destruct (Fin h2 s' F' G' K' O' SF SG SK Hk) as (S' & Sl). eexists. split; [exact S'|exact Sl].
Qed.

Lemma reads_lat h : forall las ls, Forall2 (lat h) las ls -> reads h las = Some ls.
Proof. intros las ls H. induction H as [|la l las ls Hl _ IH]; [reflexivity|]. cbn [reads]. rewrite Hl, IH. reflexivity. Qed.
Lemma cb_of_rel cb : cbrel (hcb_of cb) cb.
Proof. intros acc' la h acc l H Hl. unfold hcb_of. rewrite (reads_lat _ _ _ H), Hl. reflexivity. Qed.
Lemma lats_rev h las ls : Forall2 (lat h) las ls -> Forall2 (lat h) (rev las) (rev ls).
Proof. intros H. induction H; [constructor|]. cbn [rev]. apply Forall2_app; [assumption|]. constructor; [assumption|constructor]. Qed.
Lemma walked_same h las ls : Forall2 (lat h) las ls -> Forall2 (fun x l => lsame h (fst x) l) (map (fun la => (la, Walked)) las) ls.
Proof. intros H. induction H; constructor; [|assumption]. cbn. eexists. split; [eassumption|]. auto. Qed.
Lemma srel_walked h w ds ns ls ws vds vns vls L R las l0 : srel (mkO h w ds ns ls) (mkV ws vds vns vls) L R -> Forall2 (lat h) las l0 ->
  srel (mkO h w ds ns (ls ++ map (fun la => (la, Walked)) las)) (mkV ws vds vns (vls ++ l0)) L R.
Proof.
  intros [A1 A2 A3 A4 A5 A6 A7 A8] H. cbn [o_h o_w o_dirs o_nodes o_links v_w v_dirs v_nodes v_links] in *. constructor; cbn [o_h o_w o_dirs o_nodes o_links v_w v_dirs v_nodes v_links]; auto.
  - apply Forall2_app; [exact A6|]. now apply walked_same.
  - intros la src Hi Hf. apply in_app_iff in Hi as [Hi|Hi]; [eauto|]. apply in_map_iff in Hi as (z & Ez & _). injection Ez as <- <-. destruct Hf; discriminate.
Qed.
Lemma each_run w0 cb h w ds ns ls ws vds vns vls L R d o : srel (mkO h w ds ns ls) (mkV ws vds vns vls) L R -> nth_error L d = Some o ->
  let done s' acc h2 acc' := exists L', srel (mkO h2 w ds ns ls) (mkV w (set_nth d s' vds) vns vls) L' R /\ still R h h2 /\ Forall2 (lat h2) acc' acc in
  match ForEachLink w0 cb (p_s o, []) with
  | (Ok _, (s', acc)) => exists h2 acc', hForEachLink w0 (hcb_of cb) (p_a o) (h, []) = (Ok tt, (h2, acc')) /\ done s' acc h2 acc'
  | (Err e, (s', acc)) => exists h2 acc', hForEachLink w0 (hcb_of cb) (p_a o) (h, []) = (Err e, (h2, acc')) /\ done s' acc h2 acc'
  | (Panic, _) => exists st2, hForEachLink w0 (hcb_of cb) (p_a o) (h, []) = (Panic, st2)
  | (Fuel, _) => False
  end.
Proof.
  intros S Hd done. pose proof (li_own _ _ _ (sr_inv _ _ _ _ S) _ _ Hd) as O. cbn [o_h] in O.
  pose proof (sim_cases _ _ _ _ (foreach_sim w0 cb (hcb_of cb) h (p_a o) (p_s o) (p_F o) (p_G o) (p_K o) (cb_of_rel cb) O (foreach_fuel w0 cb (p_s o)))) as Sm. pose proof (foreach_fuel w0 cb (p_s o)) as NF.
  assert (Fin : forall s' acc h2 acc', winv h (p_a o) (p_F o) (p_G o) (p_K o) [] s' acc h2 acc' -> done s' acc h2 acc').
  { intros s' acc h2 acc' (F' & G' & K' & O' & SF & SG & SK & Hk & Ha & _). eexists. destruct (srel_update h w ds ns ls ws vds vns vls L R d o h2 w s' F' G' K' [] []) as (S' & Sl); try eassumption; try (intros z []). eauto. }
  destruct (ForEachLink w0 cb (p_s o, [])) as [[u|e| |] [s' acc]].
  - destruct Sm as (u' & [h2 acc'] & E & W). exists h2, acc'. destruct u'. split; [exact E|]. apply Fin, W.
  - destruct Sm as ([h2 acc'] & E & W). exists h2, acc'. split; [exact E|]. apply Fin, W.
  - exact Sm.
  - now apply NF.
Qed.
End Step.
