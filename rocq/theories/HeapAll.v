(** Whole programs on objects and on values. *)
From Verif Require Import Base Pb FSNode Dag Builder HashBits Bitfield Hamt DagProofs HeapHamt HeapRep HeapOps HeapGet HeapSwap HeapRun HeapRead HeapWalk HeapNode SpecHeap HeapClient HeapStep.

Lemma node_proto s w nd w1 : Node s w = (Ok nd, w1) -> exists p d ls, nd = NProto p d ls.
Proof.
  rewrite Node_eq. rewrite bind_lift. destruct (set_bits _ _ _) as [idxs|e| |]; try discriminate. unfold bind at 1. destruct (ngo _ _ _ _) as [[ls|e| |] w2]; try discriminate. rewrite bind_lift. destruct (HAMTShardData _ _ _) as [data|e| |]; try discriminate.
  unfold bind. destruct (dserv_add _ _ _) as [[u|e| |] w3]; try discriminate. intros E. injection E as <- _. unfold seal. eauto.
Qed.
Lemma forall2_nth {A B} (P : A -> B -> Prop) l l' i : Forall2 P l l' -> match nth_error l i, nth_error l' i with Some x, Some y => P x y | None, None => True | _, _ => False end.
Proof. intros H. revert i. induction H as [|x y l l' Hx _ IH]; intros [|i]; cbn; auto. apply IH. Qed.

Section Run.
Context {TG : Tag}.
Variable hash : bytes -> bytes.
Definition agree (st : ostate) (R : list laddr) (x : obs * ostate) (y : obs * vstate) : Prop :=
  fst x = fst y /\ (stops (fst x) = false -> exists L' R', srel (snd x) (snd y) L' R' /\ incl R R' /\ still R (o_h st) (o_h (snd x)) /\ exists m, o_links (snd x) = o_links st ++ m).
Lemma agree_refl st vs L R b : srel st vs L R -> agree st R (b, st) (b, vs).
Proof. intros S. split; [reflexivity|]. intros _. exists L, R. split; [exact S|]. split; [apply incl_refl|]. split; [intros z l _ H; exact H|]. exists []. now rewrite app_nil_r. Qed.
Lemma agree_stop st R b x y : stops b = true -> agree st R (b, x) (b, y).
Proof. intros H. split; [reflexivity|]. cbn. congruence. Qed.
Lemma agree_intro st R b st' vs' L' R' m : srel st' vs' L' R' -> incl R R' -> still R (o_h st) (o_h st') -> o_links st' = o_links st ++ m -> agree st R (b, st') (b, vs').
Proof. intros S I St M. split; [reflexivity|]. intros _. exists L', R'. repeat (split; [assumption|]). eauto. Qed.
Lemma add_link_app src x ls : exists m, add_link src x ls = ls ++ m.
Proof. destruct x as [la|]; [exists [(la, src)]; reflexivity|]. exists []. cbn. now rewrite app_nil_r. Qed.

Theorem step_agree op st vs L R : srel st vs L R -> agree st R (ostep hash op st) (vstep hash op vs).
Proof.
  intros S. destruct st as [h w ds ns ls], vs as [w0 vds vns vls]. pose proof (sr_w _ _ _ _ S) as Ew. cbn in Ew. subst w0. pose proof (agree_refl _ _ _ _ SBad S) as Bad.
  assert (At := fun d => dirs_at _ _ _ _ d S). cbn [o_dirs v_dirs] in At.
  destruct op as [l|p d l0|size b|n|d b|d name l|d name nd|d name|d name|d cb|d|l|n]; cbn [ostep vstep].
  - (* MakeLink *)
    destruct (srel_keep _ _ _ _ _ _ _ _ _ _ _ (length (h_links h) :: R) _ w S (new_link_kept h l)) as (S' & St).
    + intros z Hz. now right.
    + intros z [<-|Hz]; [right; cbn; rewrite app_length; cbn; lia|now left].
    + eapply agree_intro; [|apply incl_tl, incl_refl|exact St|reflexivity]. pose proof (srel_link _ _ _ _ _ _ _ _ _ _ _ (Some (length (h_links h))) (Some l) Made S') as Q. apply Q. split; [exists l; split; [apply new_at|auto]|]. intros _. now left.
  - (* Decode *)
    destruct (kept_new_links l0 h) as (las & -> & Hk & B & F2). destruct (srel_keep _ _ _ _ _ _ _ _ _ _ _ (las ++ R) _ w S Hk) as (S' & St).
    + apply incl_appr, incl_refl.
    + intros z Hz. apply in_app_iff in Hz as [Hz|Hz]; [right; now apply B|now left].
    + eapply agree_intro; [|apply incl_appr, incl_refl|exact St|symmetry; apply app_nil_r]. apply srel_node; [exact S'|exact F2|apply incl_appl, incl_refl].
  - (* NewShard *)
    unfold hNewShard, NewShard, NewShardValue. rewrite bind_lift. rewrite (hmake_eq size b [] None [] None). destruct (makeShard size [] None) as [s|e| |] eqn:Em.
    + unfold new_shard. pose proof (make_shape _ _ _ _ Em) as Es.
      destruct (srel_dir _ _ _ _ _ _ _ _ _ _ _ (mkHeap (h_links h) (h_shards h ++ [mkCell size b (s_bf s) [] None []])) (length (h_shards h)) (SetCidBuilder b s) [length (h_shards h)] [] S) as (S' & St).
      * apply new_shard_kept.
      * change (@nil laddr) with (@nil laddr ++ []). eapply (hrep_intro _ _ (mkCell size b (s_bf s) [] None []) _ [] [] [] []); [apply new_at|rewrite Es; repeat split|rewrite Es; reflexivity|rewrite Es; constructor].
      * repeat constructor. intros [].
      * intros z [<-|[]]. apply le_n.
      * intros z [].
      * eapply agree_intro; [exact S'|apply incl_refl|exact St|symmetry; apply app_nil_r].
    + exact (agree_refl _ _ _ _ (SErr e) S).
    + apply agree_stop. reflexivity.
    + apply agree_stop. reflexivity.
  - (* FromDag *)
    pose proof (forall2_nth _ _ _ n (sr_nodes _ _ _ _ S)) as Hn. cbn [o_nodes v_nodes o_h] in Hn. destruct (nth_error ns n) as [[[p d] las]|], (nth_error vns n) as [nd|]; try contradiction; [|exact Bad].
    destruct Hn as (l0 & -> & F2 & HI). assert (Hr : hreps h (map HLink las) (map SLink l0) [] [] las) by (clear - F2; induction F2; cbn [map]; constructor; assumption).
    pose proof (from_dag_sim h p d las l0 Hr) as D. destruct (NewHamtFromDag (NProto p d l0)) as [s|e| |].
    + destruct D as (x & h' & -> & Hk & Hx & Ex). destruct (srel_dir _ _ _ _ _ _ _ _ _ _ _ h' x s [x] las S Hk Hx) as (S' & St).
      * repeat constructor. intros [].
      * intros z [<-|[]]. lia.
      * intros z Hz. left. auto.
      * eapply agree_intro; [exact S'|apply incl_refl|exact St|symmetry; apply app_nil_r].
    + rewrite D. exact (agree_refl _ _ _ _ (SErr e) S).
    + destruct (hNewHamtFromDag p d las h) as [r h']. cbn in D. subst r. apply agree_stop. reflexivity.
    + destruct (hNewHamtFromDag p d las h) as [r h']. cbn in D. subst r. apply agree_stop. reflexivity.
  - (* SetCidBuilder *)
    pose proof (At d) as Ad. destruct (nth_error L d) as [o|] eqn:Hd; destruct Ad as (-> & ->); [|exact Bad].
    pose proof (li_own _ _ _ (sr_inv _ _ _ _ S) _ _ Hd) as O. cbn [o_h] in O. pose proof (owns_cell _ _ _ _ _ _ O) as (c & F' & G0 & G' & Hc & Hh & Hv & Hr & EF & EG). rewrite Hc.
    set (c' := mkCell (c_size c) b (c_bf c) (c_key c) (c_val c) (c_slots c)). set (h' := mkHeap (h_links h) (set_nth (p_a o) c' (h_shards h))).
    assert (Hk : kept h h' [p_a o] []) by apply put_kept.
    assert (O' : owns h' (p_a o) (SetCidBuilder b (p_s o)) (p_F o) (p_G o) (p_K o)).
    { destruct O as [Rp NF NG NK Nt]. constructor; auto. rewrite EF, EG. apply (hrep_intro h' (p_a o) c' (SetCidBuilder b (p_s o)) F' G0 G' (p_K o)).
      - cbn [h' h_shards]. eapply set_nth_same, Hc.
      - destruct Hh as (H1 & H2 & H3 & H4). repeat split; assumption.
      - exact Hv.
      - apply (proj2 (hrep_frame h h' _ _ Hk)); [exact Hr| |intros z _ []|intros z _ []]. intros z Hz [<-|[]]. rewrite EF in NF. inversion NF. contradiction. }
    destruct (srel_update h w ds ns ls w vds vns vls L R d o h' w _ (p_F o) (p_G o) (p_K o) [] [] S Hd O') as (S' & St); try apply sub_refl; try (intros z []).
    + eapply kept_weaken; [exact Hk|rewrite EF; intros z [<-|[]]; now left|intros z []].
    + eapply agree_intro; [exact S'|apply incl_refl|exact St|symmetry; apply app_nil_r].
  - (* SetLink *)
    pose proof (At d) as Ad. destruct (nth_error L d) as [o|] eqn:Hd; destruct Ad as (-> & ->); [|exact Bad].
    pose proof (forall2_nth _ _ _ l (sr_links _ _ _ _ S)) as Hl. cbn [o_links v_links o_h] in Hl. destruct (nth_error ls l) as [[la src]|], (nth_error vls l) as [lk|]; try contradiction; [|exact Bad]. destruct Hl as (l' & El & Ez & Et). cbn [fst] in El.
    pose proof (li_own _ _ _ (sr_inv _ _ _ _ S) _ _ Hd) as O. cbn [o_h] in O. destruct (owns_cell _ _ _ _ _ _ O) as (c & F' & G0 & G' & Hc & Hh & _).
    unfold hSetLink, SetLink. rewrite bind_get, (get_cell_ok h _ c _ Hc), (get_link_ok h la l' _ El), (head_prefix c _ 0 Hh), Ez, Et.
    set (nl := mkLink (linkNamePrefix (p_s o) 0 ++ name) (lsize lk) (lto lk)).
    assert (En : new_link nl h = (Ok (length (h_links h)), mkHeap (h_links h ++ [nl]) (h_shards h))) by reflexivity. rewrite (bind_run _ _ _ _ _ En).
    pose proof (swap_run hash (hfuel hash name) w (newHashBits hash name) name (Some (length (h_links h))) (Some nl) [length (h_links h)] h w ds ns ls w vds vns vls L R d o _ w S Hd (new_link_kept h nl)) as Q.
    assert (Hv : hval (mkHeap (h_links h ++ [nl]) (h_shards h)) name (Some (length (h_links h))) (Some nl) [length (h_links h)]).
    { split; [reflexivity|]. exists nl. split; [apply new_at|]. split; [reflexivity|]. split; [reflexivity|]. split; [eexists; reflexivity|]. intros E. apply (li_t _ _ _ (sr_inv _ _ _ _ S)) in E. cbn [o_h] in E. lia. }
    specialize (Q Hv ltac:(intros z [<-|[]]; apply le_n)).
    destruct (swapValue hash (hfuel hash name) w (newHashBits hash name) name (Some nl) (p_s o)) as [[r|e| |] s'] eqn:Esw.
    + destruct Q as (x & h2 & E2 & L' & R' & S' & St & HI & _). rewrite (bind_run _ _ _ _ _ E2), (bind_run _ _ _ _ _ Esw). eapply agree_intro; [exact S'|exact HI|exact St|symmetry; apply app_nil_r].
    + destruct Q as (h2 & E2 & L' & R' & S' & St & HI). rewrite (bind_run _ _ _ _ _ E2), (bind_run _ _ _ _ _ Esw). eapply agree_intro; [exact S'|exact HI|exact St|symmetry; apply app_nil_r].
    + destruct Q as (h2 & E2). rewrite (bind_run _ _ _ _ _ E2), (bind_run _ _ _ _ _ Esw). apply agree_stop. reflexivity.
    + destruct Q as (h2 & E2). rewrite (bind_run _ _ _ _ _ E2), (bind_run _ _ _ _ _ Esw). apply agree_stop. reflexivity.
  - (* Swap *)
    pose proof (At d) as Ad. destruct (nth_error L d) as [o|] eqn:Hd; destruct Ad as (-> & ->); [|exact Bad].
    pose proof (li_own _ _ _ (sr_inv _ _ _ _ S) _ _ Hd) as O. cbn [o_h] in O. destruct (owns_cell _ _ _ _ _ _ O) as (c & F' & G0 & G' & Hc & Hh & _).
    assert (Vs : set_nth d (p_s o) vds = vds). { apply set_same. rewrite (sr_vals _ _ _ _ S : vds = map p_s L), (nth_two _ p_s), Hd. reflexivity. }
    unfold hSwap, Swap. destruct (dserv_add nd None w) as [[u|e| |] w1].
    2:{ rewrite Vs. destruct (srel_keep _ _ _ _ _ _ _ _ _ _ _ R h w1 S (kept_refl h _ _) (incl_refl _) (fun z Hz => or_introl Hz)) as (S' & St). eapply agree_intro; [exact S'|apply incl_refl|exact St|symmetry; apply app_nil_r]. }
    2,3: apply agree_stop; reflexivity.
    cbv zeta. set (nl := make_link (linkNamePrefix (p_s o) 0 ++ name) nd).
    assert (Eq : hSwapLink hash w1 name nd (p_a o) h = hswapValue hash (hfuel hash name) w1 (newHashBits hash name) name (Some (length (h_links h))) (p_a o) (mkHeap (h_links h ++ [nl]) (h_shards h))).
    { unfold hSwapLink. rewrite (get_cell_ok h _ c _ Hc), (head_prefix c _ 0 Hh). reflexivity. }
    pose proof (swap_run hash (hfuel hash name) w1 (newHashBits hash name) name (Some (length (h_links h))) (Some nl) [length (h_links h)] h w ds ns ls w vds vns vls L R d o _ w1 S Hd (new_link_kept h nl)) as Q.
    assert (Hv : hval (mkHeap (h_links h ++ [nl]) (h_shards h)) name (Some (length (h_links h))) (Some nl) [length (h_links h)]).
    { split; [reflexivity|]. exists nl. split; [apply new_at|]. split; [reflexivity|]. split; [reflexivity|]. split; [eexists; reflexivity|]. intros E. apply (li_t _ _ _ (sr_inv _ _ _ _ S)) in E. cbn [o_h] in E. lia. }
    specialize (Q Hv ltac:(intros z [<-|[]]; apply le_n)).
    destruct (swapValue hash (hfuel hash name) w1 (newHashBits hash name) name (Some nl) (p_s o)) as [[r|e| |] s'] eqn:Esw.
    + destruct Q as (x & h2 & E2 & L' & R' & S' & St & HI & Lk). rewrite (eq_trans Eq E2), (linked_seen _ _ _ _ Lk). destruct (add_link_app Taken x ls) as (m & Em). eapply agree_intro; [|exact HI|exact St|exact Em]. apply srel_link; [exact S'|]. destruct x, r; try contradiction; [|exact I]. destruct Lk. auto.
    + destruct Q as (h2 & E2 & L' & R' & S' & St & HI). rewrite (eq_trans Eq E2). eapply agree_intro; [exact S'|exact HI|exact St|symmetry; apply app_nil_r].
    + destruct Q as (h2 & E2). rewrite (eq_trans Eq E2). apply agree_stop. reflexivity.
    + destruct Q as (h2 & E2). rewrite (eq_trans Eq E2). apply agree_stop. reflexivity.
  - (* Take *)
    pose proof (At d) as Ad. destruct (nth_error L d) as [o|] eqn:Hd; destruct Ad as (-> & ->); [|exact Bad]. unfold hTake, Take.
    pose proof (swap_run hash (hfuel hash name) w (newHashBits hash name) name None None [] h w ds ns ls w vds vns vls L R d o h w S Hd (kept_refl h _ _) eq_refl ltac:(intros z [])) as Q.
    destruct (swapValue hash (hfuel hash name) w (newHashBits hash name) name None (p_s o)) as [[r|e| |] s'] eqn:Esw.
    + destruct Q as (x & h2 & -> & L' & R' & S' & St & HI & Lk). rewrite (linked_seen _ _ _ _ Lk). destruct (add_link_app Taken x ls) as (m & Em). eapply agree_intro; [|exact HI|exact St|exact Em]. apply srel_link; [exact S'|]. destruct x, r; try contradiction; [|exact I]. destruct Lk. auto.
    + destruct Q as (h2 & -> & L' & R' & S' & St & HI). eapply agree_intro; [exact S'|exact HI|exact St|symmetry; apply app_nil_r].
    + destruct Q as (h2 & ->). apply agree_stop. reflexivity.
    + destruct Q as (h2 & ->). apply agree_stop. reflexivity.
  - (* Find *)
    pose proof (At d) as Ad. destruct (nth_error L d) as [o|] eqn:Hd; destruct Ad as (-> & ->); [|exact Bad]. unfold hFind, Find.
    pose proof (find_run (hfuel hash name) w (newHashBits hash name) name h w ds ns ls w vds vns vls L R d o S Hd) as Q.
    destruct (getValue (hfuel hash name) w (newHashBits hash name) name (p_s o)) as [[r|e| |] s'] eqn:Esw.
    + destruct Q as (x & h2 & -> & L' & S' & St & Lk). assert (Es : seen_link h2 x = seen_val r). { destruct x as [la|], r as [l|]; try contradiction; [|reflexivity]. destruct Lk as ((l' & E & A & B) & _). cbn. rewrite E. unfold view. congruence. }
      rewrite Es. destruct (add_link_app (Found name) x ls) as (m & Em). eapply agree_intro; [|apply incl_refl|exact St|exact Em]. apply srel_link; [exact S'|]. destruct x, r; try contradiction; [|exact I]. split; [apply Lk|]. intros [|]; discriminate.
    + destruct Q as (h2 & -> & L' & S' & St). eapply agree_intro; [exact S'|apply incl_refl|exact St|symmetry; apply app_nil_r].
    + destruct Q as (h2 & ->). apply agree_stop. reflexivity.
    + destruct Q as (h2 & ->). apply agree_stop. reflexivity.
  - (* ForEachLink *)
    pose proof (At d) as Ad. destruct (nth_error L d) as [o|] eqn:Hd; destruct Ad as (-> & ->); [|exact Bad].
    pose proof (each_run w cb h w ds ns ls w vds vns vls L R d o S Hd) as Q. cbv zeta in Q.
    destruct (ForEachLink w cb (p_s o, [])) as [[u|e| |] [s' acc]].
    + destruct Q as (h2 & acc' & -> & L' & S' & St & F2). apply lats_rev in F2. rewrite (reads_lat _ _ _ F2). eapply agree_intro; [|apply incl_refl|exact St|reflexivity]. eapply srel_walked; [exact S'|exact F2].
    + destruct Q as (h2 & acc' & -> & L' & S' & St & F2). apply lats_rev in F2. rewrite (reads_lat _ _ _ F2). eapply agree_intro; [|apply incl_refl|exact St|reflexivity]. eapply srel_walked; [exact S'|exact F2].
    + destruct Q as ([h2 acc'] & ->). apply agree_stop. reflexivity.
    + contradiction.
  - (* Node *)
    pose proof (At d) as Ad. destruct (nth_error L d) as [o|] eqn:Hd; destruct Ad as (-> & ->); [|exact Bad].
    pose proof (li_own _ _ _ (sr_inv _ _ _ _ S) _ _ Hd) as O. cbn [o_h] in O. pose proof (hbound_ok _ _ _ _ _ _ O) as Hb. rewrite (proj1 (node_all h) _ _ _ _ _ (ow_rep _ _ _ _ _ _ O) (hbound h)) by lia.
    destruct (Node (p_s o) w) as [[nd|e| |] w1] eqn:En.
    + destruct (node_proto _ _ _ _ En) as (p & b & l0 & ->). cbn [node_links node_prefix node_bytes]. destruct (kept_new_links l0 h) as (las & -> & Hk & B & F2). destruct (srel_keep _ _ _ _ _ _ _ _ _ _ _ (las ++ R) _ w1 S Hk) as (S' & St).
      * apply incl_appr, incl_refl.
      * intros z Hz. apply in_app_iff in Hz as [Hz|Hz]; [right; now apply B|now left].
      * eapply agree_intro; [|apply incl_appr, incl_refl|exact St|symmetry; apply app_nil_r]. apply srel_node; [exact S'|exact F2|apply incl_appl, incl_refl].
    + destruct (srel_keep _ _ _ _ _ _ _ _ _ _ _ R h w1 S (kept_refl h _ _) (incl_refl _) (fun z Hz => or_introl Hz)) as (S' & St). eapply agree_intro; [exact S'|apply incl_refl|exact St|symmetry; apply app_nil_r].
    + apply agree_stop. reflexivity.
    + apply agree_stop. reflexivity.
  - (* a link *)
    pose proof (forall2_nth _ _ _ l (sr_links _ _ _ _ S)) as Hl. cbn [o_links v_links o_h] in Hl. destruct (nth_error ls l) as [[la src]|], (nth_error vls l) as [lk|]; try contradiction; [|exact Bad]. destruct Hl as (l' & El & Ez & Et). cbn [fst] in El.
    cbn [seen_link]. rewrite El. assert (Ev : view l' = view lk) by (unfold view; congruence). rewrite Ev. exact (agree_refl _ _ _ _ _ S).
  - (* a node *)
    pose proof (forall2_nth _ _ _ n (sr_nodes _ _ _ _ S)) as Hn. cbn [o_nodes v_nodes o_h] in Hn. destruct (nth_error ns n) as [[[p d] las]|], (nth_error vns n) as [nd|]; try contradiction; [|exact Bad].
    destruct Hn as (l0 & -> & F2 & HI). rewrite (reads_lat _ _ _ F2). exact (agree_refl _ _ _ _ _ S).
Qed.
End Run.
