(** The estimated sizes of directories in programs with several directories. *)
From Verif Require Import Base Pb FSNode Dag Builder HashBits HashProofs Bitfield Hamt HamtExec Walk Directory DirBasic DirObj SpecDirObj DirObjProofs DirObjRun.
From Coq Require Import Permutation.

Lemma perm_filter {A} (f : A -> bool) a b : Permutation a b -> Permutation (filter f a) (filter f b).
Proof.
  induction 1 as [|x a b _ IH|x y a|a b c _ IH1 _ IH2]; cbn [filter]; [constructor|destruct (f x); auto| |eapply Permutation_trans; eassumption].
  destruct (f x), (f y); auto using perm_swap.
Qed.
Lemma entries_linksSize ls : entries_size ls = linksSize ls.
Proof. reflexivity. Qed.
Definition bexact (b : basic) : Prop := NoDup (names (b_links b)) /\ b_est b = linksSize (b_links b).
Definition exact_dir (v : directory) : Prop := match v with DBasic b => bexact b | DHamt _ => True end.

Lemma exact_remove k b : bexact b -> bexact (snd (bRemoveChild k b)) /\ ~ In k (names (b_links (snd (bRemoveChild k b)))).
Proof.
  intros [H1 H2]. unfold bRemoveChild. destruct (GetNodeLink k (b_links b)) as [l|] eqn:E; cbn [snd].
  - pose proof (remove_size k _ _ H1 E) as S. pose proof (linksSize_nonneg (RemoveNodeLink k (b_links b))) as Hp. unfold removeFromEstimatedSize, b_set_links, bexact. cbn [b_links b_est].
    split; [split; [now apply remove_nodup|]|].
    + rewrite H2, S. destruct (Z.ltb_spec (linksSize (b_links b) - linkSize (lname l) (lto l)) 0); lia.
    + intros Hi. apply remove_names in Hi. now destruct Hi.
  - split; [split; assumption|]. now apply get_none.
Qed.
Lemma exact_addlink k l b : bexact b -> fst (addLinkChild k l b) = Ok tt /\ bexact (snd (addLinkChild k l b)).
Proof.
  intros H. destruct (exact_remove k b H) as [[A1 A2] A3]. unfold addLinkChild. destruct (remove_cases k b) as [b1 [C|C]]; rewrite C in *; cbn [fst snd] in *; (split; [reflexivity|]).
  all: unfold bexact, addToEstimatedSize, b_set_links, AddRawLink; cbn [b_links b_est]; split.
  all: try (unfold names; rewrite map_app; cbn [map lname]; apply NoDup_app_snoc || idtac).
  all: try (rewrite linksSize_app, linksSize_cons, A2; unfold linksSize at 3; cbn; lia).
  all: apply (Permutation_NoDup (Permutation_cons_append _ _)); constructor; assumption.
Qed.
Lemma exact_add k n b : bexact b -> fst (bAddChild k n b) = Ok tt /\ bexact (snd (bAddChild k n b)).
Proof. apply exact_addlink. Qed.
Lemma exact_addlinks ls : forall b, bexact b -> bexact (snd (addLinks ls b)).
Proof. induction ls as [|l ls IH]; intros b H; [exact H|]. rewrite addLinks_cons. apply IH. now apply exact_addlink. Qed.
Lemma exact_empty b : newEmptyBasicDirectory = Ok b -> bexact b.
Proof. unfold newEmptyBasicDirectory. destruct FolderPBData; cbn [rmap]; intros E; try discriminate. injection E as <-. split; [constructor|reflexivity]. Qed.
Lemma exact_switch w h b : fst (switchToBasic w h) = Ok b -> bexact b.
Proof.
  unfold switchToBasic. destruct newEmptyBasicDirectory as [x|e| |] eqn:E; try discriminate. destruct (ForEachLink _ _ _) as [[u|e| |] [s acc]]; try discriminate. cbn [fst]. intros H. injection H as <-.
  apply exact_addlinks. exact (exact_empty _ E).
Qed.
Lemma exact_shrink w m h : (forall b, bexact b -> bexact (snd (m b))) -> exact_dir (snd (vshrink w m h)).
Proof.
  intros Hm. unfold vshrink. pose proof (exact_switch w h) as S. destruct (switchToBasic w h) as [[b|e| |] h1]; cbn [fst snd] in *; try exact Logic.I. specialize (S b eq_refl). specialize (Hm b S). destruct (m b) as [[u|e| |] b1]; cbn; auto.
Qed.

Lemma est_add k n b : bexact b -> b_est b + (newSize k (Some n) - match GetNodeLink k (b_links b) with Some l => linkSize k (lto l) | None => 0 end) = linksSize (b_links (snd (bAddChild k n b))).
Proof.
  intros H. destruct (exact_add k n b H) as [_ [_ E]]. rewrite <- E. destruct H as [H1 H2]. unfold bAddChild, addLinkChild, bRemoveChild, newSize. destruct (GetNodeLink k (b_links b)) as [l|] eqn:G; cbn [snd].
  - unfold removeFromEstimatedSize, addToEstimatedSize, b_set_links. cbn [b_est]. pose proof (remove_size k _ _ H1 G) as S. pose proof (linksSize_nonneg (RemoveNodeLink k (b_links b))) as Hp. destruct (get_some _ _ _ G) as [_ Hn]. rewrite Hn in *. cbn [make_link lto].
    destruct (Z.ltb_spec (b_est b - linkSize k (lto l)) 0); lia.
  - unfold addToEstimatedSize, b_set_links. cbn [b_est make_link lto]. lia.
Qed.

Section Run.
  Variables (hash : bytes -> bytes) (W : Z) (mayc : bool).
  Notation oexec := (oexec hash W mayc).
  Notation answers := (answers hash W mayc).

  Lemma exact_dAdd T k n v w r v' w' : exact_dir v -> dAddChild hash W mayc T k n (v, w) r (v', w') -> exact_dir v'.
  Proof.
    intros Hv H. destruct v as [b|h]; cbn [dAddChild] in H.
    - destruct (needsToSwitchToHAMTDir T k (Some n) b).
      + destruct (switchToSharding hash W w b) as [h|e| |]; [|destruct H as [_ H]; injection H as -> _; exact Hv..].
        destruct (hAddChild hash k n (h, w)) as [[u|e| |] [h1 w1]]; destruct H as [_ H]; injection H as -> _; try exact Hv; exact Logic.I.
      + pose proof (exact_add k n b Hv) as [_ A]. destruct (bAddChild k n b) as [r1 b1]. destruct H as [_ H]. injection H as -> _. exact A.
    - destruct H as (ra & h1 & _ & H). destruct ra as [[]|e| |]; try (destruct H as [_ H]; injection H as -> _; exact Logic.I).
      + apply shrink_value in H. destruct H as [_ H]. injection H as -> _. apply exact_shrink. intros b Hb. now apply exact_add.
      + destruct (hAddChild hash k n (h1, w)) as [r1 [h2 w1]]. destruct H as [_ H]. injection H as -> _. exact Logic.I.
  Qed.
  Lemma exact_dRemove T k v w r v' w' : exact_dir v -> dRemoveChild hash mayc T k (v, w) r (v', w') -> exact_dir v'.
  Proof.
    intros Hv H. destruct v as [b|h]; cbn [dRemoveChild] in H.
    - pose proof (exact_remove k b Hv) as [A _]. destruct (bRemoveChild k b) as [r1 b1]. destruct H as [_ H]. injection H as -> _. exact A.
    - destruct H as (ra & h1 & _ & H). destruct ra as [[]|e| |]; try (destruct H as [_ H]; injection H as -> _; exact Logic.I).
      + apply shrink_value in H. destruct H as [_ H]. injection H as -> _. apply exact_shrink. intros b Hb. now apply exact_remove.
      + destruct (hRemoveChild hash w k h1) as [r1 h2]. destruct H as [_ H]. injection H as -> _. exact Logic.I.
  Qed.
  Lemma exact_encoded v : exact_dir v -> exact_dir (dEncoded v).
  Proof.
    destruct v as [b|h]; [|auto]. intros [H1 H2]. cbn. unfold bexact, b_set_links. cbn [b_links b_est]. pose proof (lsort_perm (b_links b)) as P. split.
    - eapply Permutation_NoDup; [|exact H1]. apply Permutation_map. now apply Permutation_sym.
    - rewrite H2. symmetry. now apply linksSize_perm.
  Qed.

  Lemma creach_reach st : creach hash W mayc st -> oreach hash W mayc st.
  Proof. induction 1 as [w|st op r st' _ IH _ He]; [exists w, [], []; constructor|eapply reach_step; eassumption]. Qed.
  Lemma dir_dec st i : oreach hash W mayc st -> dir_of st i = None -> nth_error (o_dirs st) i = None.
  Proof. intros Hr H. unfold dir_of in H. destruct (nth_error (o_dirs st) i) as [d|] eqn:E; [|reflexivity]. destruct (reach_inv _ _ _ _ Hr) as [V _]. destruct (V _ _ E) as [v Ev]. congruence. Qed.
  Lemma creach_exact st : creach hash W mayc st -> forall i v, dir_of st i = Some v -> exact_dir v.
  Proof.
    induction 1 as [w|st op r st' Hc IH Hca He]; intros j v Hv; [destruct j; discriminate|].
    pose proof (creach_reach _ Hc) as Hr.
    assert (Hd : modifies op j \/ ~ modifies op j) by (destruct op; cbn; auto; destruct (Nat.eq_dec j i); auto).
    destruct (dir_of st j) as [v1|] eqn:E1.
    - destruct Hd as [Hm|Hm].
      + destruct op as [n|a|a q d ls|b|a|i b|i T k a|i T k|i]; cbn in Hm; try contradiction; subst j.
        * destruct (builder_value _ _ _ _ _ _ _ _ _ Hr E1 He) as (_ & G & _). rewrite G in Hv. injection Hv as <-. specialize (IH _ _ E1). destruct v1; exact IH.
        * destruct (node_of st a) as [n|] eqn:En.
          -- destruct (add_value _ _ _ _ _ _ _ _ _ _ _ _ Hr E1 En He) as (v0 & r0 & v' & G1 & G2 & _ & G3). rewrite G3 in Hv. injection Hv as <-. eapply exact_dAdd; [|exact G2]. destruct G1 as [->|[_ ->]]; [|apply exact_encoded]; eauto.
          -- cbn [DirObj.oexec] in He. unfold node_of in En. rewrite En in He. destruct (nth_error (o_dirs st) i); destruct He as [_ ->]; eauto.
        * destruct (remove_value _ _ _ _ _ _ _ _ _ _ Hr E1 He) as (r0 & v' & G2 & _ & G3). rewrite G3 in Hv. injection Hv as <-. eapply exact_dRemove; [|exact G2]. eauto.
      + destruct (others_kept _ _ _ _ _ _ _ _ _ Hr He Hm E1) as [G|[(a & _ & _ & G)|(a & G1 & G2)]].
        * rewrite G in Hv. injection Hv as <-. eauto.
        * rewrite G in Hv. injection Hv as <-. apply exact_encoded. eauto.
        * destruct op; try contradiction. cbn in G2. subst a. destruct (Hca j G1).
    - (* a new directory *)
      pose proof (dir_dec _ _ Hr E1) as E2. destruct (oexec_shape _ _ _ _ _ _ _ (reach_inv _ _ _ _ Hr) He) as [i0 Hs].
      destruct op as [n|a|a q d ls|b|a|i b|i T k a|i T k|i].
      4:{ destruct (new_value _ _ _ _ _ _ _ He) as (i & v1 & G1 & G2 & G3 & G4 & _). destruct (Nat.eq_dec j i) as [->|D].
          - rewrite G4 in Hv. injection Hv as <-. unfold NewDirectory in G1. destruct newEmptyBasicDirectory as [x|e| |] eqn:Ex; try discriminate. injection G1 as <-. pose proof (exact_empty _ Ex) as [A B]. split; assumption.
          - exfalso. cbn [DirObj.oexec] in He. destruct newEmptyBasicDirectory; destruct He as [R He]; rewrite R in G2; try discriminate. injection G2 as <-. subst st'. unfold dir_of in Hv. cbn [o_dirs o_nodes] in Hv. destruct (nth_error (o_dirs st ++ _) j) eqn:G; [|discriminate]. apply app_cases in G. destruct G as [[_ G]|[G _]]; congruence. }
      4:{ cbn [DirObj.oexec] in He. destruct (nth_error (o_nodes st) a) as [n|] eqn:En; [|destruct He as [_ ->]; congruence].
          assert (G : forall d, o_dirs st' = o_dirs st ++ [d] -> j = length (o_dirs st) /\ nth_error (o_dirs st') j = Some d).
          { intros d Ed. unfold dir_of in Hv. rewrite Ed in *. destruct (nth_error (o_dirs st ++ [d]) j) eqn:G; [|discriminate]. pose proof G as G0. apply app_cases in G. destruct G as [[_ G]|[G ->]]; [congruence|auto]. }
          destruct (NewDirectoryFromNode n) as [[x|h]|e| |] eqn:Ex; destruct He as [_ He]; try (subst st'; congruence).
          - destruct (G (OBasic (length (o_nodes st)) (b_est x))) as [-> Gd]; [subst st'; reflexivity|]. unfold dir_of in Hv. rewrite Gd in Hv. subst st'. cbn [o_nodes dview] in Hv. unfold bview in Hv. rewrite nth_error_app2, Nat.sub_diag in Hv by lia. cbn in Hv. injection Hv as <-.
            specialize (Hca n En). unfold NewDirectoryFromNode in Ex. destruct n as [q d|q d ls]; [discriminate|]. destruct (FSNodeFromBytes d) as [f| | |]; cbn [rbind] in Ex; try discriminate. destruct (getType f =? TDirectory); [injection Ex as <-; split; [exact Hca|apply estimate]|]. destruct (getType f =? THAMTShard); [|discriminate]. destruct (NewHamtFromDag _); discriminate.
          - destruct (G (OHamt h)) as [-> Gd]; [subst st'; reflexivity|]. unfold dir_of in Hv. rewrite Gd in Hv. injection Hv as <-. exact Logic.I. }
      all: exfalso; assert (Ed : length (o_dirs st') = length (o_dirs st)).
      all: try (unfold dir_of in Hv; destruct (nth_error (o_dirs st') j) eqn:G; [|discriminate]; assert (Hj : (j < length (o_dirs st'))%nat) by (apply nth_error_Some; congruence); apply nth_error_None in E2; lia).
      all: cbn [DirObj.oexec] in He.
      * now destruct He as [_ ->].
      * now destruct He as [_ ->].
      * destruct (nth_error (o_nodes st) a) as [[]|]; now destruct He as [_ ->].
      * destruct (nth_error (o_dirs st) i) as [[]|]; destruct He as [_ ->]; cbn [o_dirs]; rewrite ?set_nth_length; reflexivity.
      * destruct (nth_error (o_dirs st) i); [|now destruct He as [_ ->]]. destruct (nth_error (o_nodes st) a); [|now destruct He as [_ ->]]. destruct He as (r0 & d' & hp' & w' & _ & _ & ->). apply set_nth_length.
      * destruct (nth_error (o_dirs st) i); [|now destruct He as [_ ->]]. destruct He as (r0 & d' & hp' & w' & _ & _ & ->). apply set_nth_length.
      * destruct (nth_error (o_dirs st) i) as [[p est|h]|]; [now destruct He as [_ ->]| |now destruct He as [_ ->]]. destruct (Node (h_shard h) (o_world st)) as [[n|e| |] w1]; now destruct He as [_ ->].
  Qed.

  (** AddChild of a basic directory keeps to the threshold. *)
  Lemma threshold st i T k a n b st' : creach hash W mayc st -> T <> 0 -> dir_of st i = Some (DBasic b) -> node_of st a = Some n -> oexec (OAdd i T k a) st (Ok OUnit) st' ->
    match dir_of st' i with
    | Some (DBasic b') => entries_size (b_links b') < T
    | Some (DHamt _) => exists b', bAddChild k n b = (Ok tt, b') /\ T <= entries_size (b_links b')
    | None => False
    end.
  Proof.
    intros Hc HT Hv Hn He. pose proof (creach_reach _ Hc) as Hr. pose proof (creach_exact _ Hc _ _ Hv) as Hx. destruct (add_value _ _ _ _ _ _ _ _ _ _ _ _ Hr Hv Hn He) as (v0 & r0 & v' & G1 & G2 & G3 & G4). rewrite G4.
    assert (G : exists b0, v0 = DBasic b0 /\ bexact b0 /\ Permutation (b_links b0) (b_links b)).
    { destruct G1 as [->|[_ ->]]; eexists; (split; [reflexivity|]). - split; [exact Hx|apply Permutation_refl]. - split; [exact (exact_encoded _ Hx)|]. apply lsort_perm. }
    destruct G as (b0 & -> & Hb & P). destruct r0 as [[]|e| |]; try discriminate.
    assert (E : T <> 0 -> needsToSwitchToHAMTDir T k (Some n) b0 = (T <=? linksSize (b_links (snd (bAddChild k n b0))))).
    { intros _. unfold needsToSwitchToHAMTDir. destruct (Z.eqb_spec T 0); [contradiction|]. now rewrite (est_add k n b0 Hb). }
    cbn [dAddChild] in G2. rewrite (E HT) in G2. destruct (Z.leb_spec T (linksSize (b_links (snd (bAddChild k n b0))))) as [L|L].
    - assert (Q : exists b', bAddChild k n b = (Ok tt, b') /\ T <= entries_size (b_links b')).
      { destruct (exact_add k n b Hx) as [A _]. exists (snd (bAddChild k n b)). split; [destruct (bAddChild k n b); cbn in *; now rewrite A|]. rewrite entries_linksSize. rewrite <- (est_add k n b Hx). rewrite <- (est_add k n b0 Hb) in L.
        destruct Hb as [Hb1 Hb2]. destruct Hx as [Hx1 Hx2]. rewrite Hb2, (linksSize_perm _ _ P) in L. rewrite Hx2.
        assert (Eq : match GetNodeLink k (b_links b0) with Some l => linkSize k (lto l) | None => 0 end = match GetNodeLink k (b_links b) with Some l => linkSize k (lto l) | None => 0 end); [|lia].
        destruct (GetNodeLink k (b_links b0)) as [l|] eqn:Ga; destruct (GetNodeLink k (b_links b)) as [m|] eqn:Gb.
        - pose proof (remove_size k _ _ Hb1 Ga) as S1. pose proof (remove_size k _ _ Hx1 Gb) as S2. destruct (get_some _ _ _ Ga) as [_ N1]. destruct (get_some _ _ _ Gb) as [_ N2]. rewrite N1 in S1. rewrite N2 in S2.
          assert (Pr : Permutation (RemoveNodeLink k (b_links b0)) (RemoveNodeLink k (b_links b))) by (apply perm_filter; exact P). rewrite (linksSize_perm _ _ Pr), (linksSize_perm _ _ P) in S1. lia.
        - exfalso. apply get_none in Gb. apply Gb. destruct (get_some _ _ _ Ga) as [I1 N1]. rewrite <- N1. apply in_map. eapply Permutation_in; eassumption.
        - exfalso. apply get_none in Ga. apply Ga. destruct (get_some _ _ _ Gb) as [I1 N1]. rewrite <- N1. apply in_map. eapply Permutation_in; [apply Permutation_sym|]; eassumption.
        - reflexivity. }
      destruct (switchToSharding hash W (o_world st) b0) as [h|e| |]; [|destruct G2; discriminate..].
      destruct (hAddChild hash k n (h, o_world st)) as [[u|e| |] [h1 w1]]; destruct G2 as [R G2]; try discriminate. injection G2 as -> _. exact Q.
    - destruct (bAddChild k n b0) as [r1 b1]. destruct G2 as [_ G2]. injection G2 as -> _. exact L.
  Qed.
End Run.
