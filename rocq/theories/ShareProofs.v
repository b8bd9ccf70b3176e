(** Blocks are functions of the data below them. *)
From Verif Require Import Base Pb PbProofs FSNode FSNodeProofs Dag DagProofs Builder Balanced Trickle Importer SpecFile SpecShare
  BuilderProofs BalancedProofs ImportProofs DetProofs SizesProofs KindProofs AppendRun.

(** ** How blocks are encoded *)

(** Inner nodes. *)
Definition bare (f : FSNode) : Prop := d_type f = Some TFile /\ d_data f = None /\ d_hashtype f = None /\ d_fanout f = None /\ d_unrec f = [].
Section Enc.
  (** The type of leaves that are not raw. *)
  Variable t : Z.
  Hypothesis Ht : leaf_ok t.
  Definition enc1 (n : node) : Prop :=
    match n with
    | NRaw _ _ => True
    | NProto _ b ls => exists f, good_data f /\ GetBytes f = Ok b /\ (bare f \/ (ls = [] /\ exists c, f = SetData c (NewFSNode t)))
    end.
  Definition enc (n : node) : Prop := forall m, reach n m -> enc1 m.

  Lemma enc_node p b ls : enc (NProto p b ls) <-> enc1 (NProto p b ls) /\ forall l, In l ls -> enc (lto l).
  Proof.
    split.
    - intros H. split; [apply H, reach_self|]. intros l Hl m Hm. apply H. eapply reach_link; [|exact Hm]. exact Hl.
    - intros (H1 & H2) m Hm. inversion Hm; subst; [exact H1|]. eapply H2; eassumption.
  Qed.
  Lemma enc_seal n : enc n -> enc (seal n).
  Proof.
    destruct n as [p d|p b ls]; [auto|]. cbn [seal]. rewrite !enc_node. intros (H1 & H2). split; [|intros l Hl; apply H2; now apply In_lsort].
    destruct H1 as (f & Hg & Hb & [H|(-> & H)]); exists f; split; auto.
  Qed.

  Notation top := (fun _ => True).
  Definition nok (n : fsn) : Prop := (tgood (f_file n) /\ bare (f_file n)) /\ forall l, In l (f_links n) -> enc (lto l).
  Definition done (n : fsn) : Prop := nok n /\ GetBytes (f_file n) = Ok (f_bytes n).
  Notation keeps m := (trip (fun s : fsn * db => nok (fst s)) m (fun _ s => nok (fst s)) top).
  Notation ends m := (trip (fun s : fsn * db => nok (fst s)) m (fun _ s => done (fst s)) top).
  Notation good c := (enc (fst (fst c)) /\ zok c).
  Notation makes m := (trip top m (fun (c : xnode * Z) (_ : db) => good c) top).

  Lemma done_enc n : done n -> enc (GetDagNode n).
  Proof. intros (((H1 & H2) & H3) & H4). apply enc_node. split; [|exact H3]. exists (f_file n). split; [apply H1|]. auto. Qed.
  Lemma new_nok b : nok (NewFSNodeOverDag b TFile).
  Proof. split; [|intros l []]. split; [destruct (new_below b TFile (or_introl eq_refl)) as [H _]; exact H|]. repeat split. Qed.
  Lemma leaf_enc data d n : NewLeafNode data t d = Ok n -> enc n.
  Proof.
    unfold NewLeafNode. destruct (_ <? _) eqn:El; [discriminate|]. apply Z.ltb_ge in El. destruct (db_raw d); [intros [= <-] m Hm; inversion Hm; subst; [exact Logic.I|contradiction]|].
    unfold Commit. cbn [SetFileData NewFSNodeOverDag f_file]. destruct (GetBytes _) as [b| | |] eqn:Eg; try discriminate. cbn [rbind]. intros [= <-]. apply enc_node. split; [|intros l []].
    exists (SetData data (NewFSNode t)). split; [apply good_leaf; [exact Ht|unfold BlockSizeLimit, two64 in *; lia]|]. split; [exact Eg|]. right. split; [reflexivity|eauto].
  Qed.
  Lemma e_leaf : makes (NewLeafDataNode t).
  Proof.
    intros d _. pose proof (leaf_zok t d Logic.I) as Z. unfold NewLeafDataNode in *. rewrite bind_at in *. destruct (Next d) as [[data| | |] d1]; try exact Logic.I.
    unfold bind at 1 in Z; unfold bind at 1. destruct (NewLeafNode data t d1) as [n| | |] eqn:En; try exact Logic.I. pose proof (leaf_enc _ _ _ En) as Hf.
    unfold bind at 1, ProcessFileStore in Z; unfold bind at 1, ProcessFileStore. destruct (db_fs d1), n; cbn [ret] in *; split; try exact Hf; exact Z.
  Qed.
  Lemma e_on_db {X} (m : M db X) (Q : X -> Prop) : trip top m (fun a _ => Q a) top -> trip (fun s : fsn * db => nok (fst s)) (on_db m) (fun a s => nok (fst s) /\ Q a) top.
  Proof. intros H [n d] Hn. unfold on_db. cbn [fst snd] in *. specialize (H d Logic.I). destruct (m d) as [[a| | |] d']; try exact Logic.I. split; [exact Hn|exact H]. Qed.
  Lemma e_done : keeps (on_db Done).
  Proof. intros [n d] Hn. unfold on_db. destruct (Done (snd (n, d))) as [[a| | |] d']; try exact Logic.I. exact Hn. Qed.
  Lemma e_AddChild x z : trip (fun s : fsn * db => nok (fst s) /\ good (x, z)) (AddChild x z) (fun _ s => nok (fst s)) top.
  Proof.
    intros [n d] (((H1 & H2) & H3) & Hx & Hz). unfold AddChild. cbn [fst snd] in *. destruct (Add x d) as [[[]| | |] d']; try exact Logic.I. cbn [fst].
    split; [split; [now apply tgood_add|cbn [f_file]; rewrite AddBlockSize_eq; exact H2]|].
    cbn [f_links]. intros l Hl. apply in_app_iff in Hl. destruct Hl as [Hl|[<-|[]]]; [auto|now apply enc_seal].
  Qed.
  Lemma e_commit : ends commit.
  Proof.
    intros [n d] (H1 & H2). unfold commit, Commit. cbn [fst snd] in *. destruct (GetBytes (f_file n)) as [b| | |] eqn:E; try exact Logic.I. split; [split; assumption|exact E].
  Qed.
  Lemma e_commit' : keeps commit.
  Proof. eapply trip_weaken; [apply e_commit|auto|]. intros a s H. apply H. Qed.
  Lemma e_fill mk : makes mk -> forall fuel, keeps (fill_loop mk fuel).
  Proof.
    intros Hm. induction fuel as [|f IH]; intros s Hs; cbn [fill_loop]; (destruct (_ <? _); [|exact Hs]); revert s Hs;
      match goal with |- forall s, _ -> match ?m s with _ => _ end => change (keeps m) end.
    all: eapply trip_bind; [apply e_done|]; intros dn; apply trip_if; [apply trip_ret|];
      eapply trip_bind; [apply (e_on_db mk (fun c => good c)), Hm|]; intros [x z]; eapply trip_bind; [apply (e_AddChild x z)|]; intros u; first [intros ? ?; exact Logic.I|exact IH].
  Qed.
  Lemma e_add_children mk : makes mk -> forall k, keeps (add_children mk k).
  Proof.
    intros Hm. induction k as [|k IH]; cbn [add_children]; [apply trip_ret|]. eapply trip_bind; [apply e_done|]. intros dn. apply trip_if; [apply trip_ret|].
    eapply trip_bind; [apply (e_on_db mk (fun c => good c)), Hm|]. intros [x z]. eapply trip_bind; [apply (e_AddChild x z)|]. intros ?. exact IH.
  Qed.
  Lemma e_depth fill : (forall z, makes (fill z)) -> forall fuel depth mx, keeps (depth_loop fill fuel depth mx).
  Proof.
    intros Hm. induction fuel as [|f IH]; intros depth mx; cbn [depth_loop]; (apply trip_if; [|apply trip_ret]); (eapply trip_bind; [apply e_done|]); intros dn;
      (apply trip_if; [apply trip_ret|]); (eapply trip_bind; [apply e_add_children, Hm|]); intros ?; [intros ? ?; exact Logic.I|apply IH].
  Qed.
  Lemma e_with_new n m d : nok n -> ends m -> match with_new n m d with (Ok c, _) => good c | _ => True end.
  Proof.
    intros Hn Hm. unfold with_new. specialize (Hm (n, d) Hn). destruct (m (n, d)) as [[[]| | |] [n' d2]]; try exact Logic.I.
    split; [now apply done_enc|apply tgood_size, Hm].
  Qed.
End Enc.
Notation makes t m := (trip (fun _ => True) m (fun (c : xnode * Z) (_ : db) => enc t (fst (fst c)) /\ zok c) (fun _ => True)).
Notation ends t m := (trip (fun s : fsn * db => nok t (fst s)) m (fun _ s => done t (fst s)) (fun _ => True)).

Lemma e_node_rec depth : ends TFile (fillNodeRec depth).
Proof.
  induction depth as [|k IH]; [intros s Hs; exact Logic.I|]. intros s Hs. cbn [fillNodeRec].
  refine (trip_bind _ _ (fun s => nok TFile (fst s)) (fun _ s => nok TFile (fst s)) (fun _ s => done TFile (fst s)) (fun _ => True) _ _ s Hs); [|intros u; apply e_commit].
  apply e_fill. destruct k as [|k']; [apply e_leaf; now left|]. intros d _. apply e_with_new; [apply new_nok|exact IH].
Qed.
Lemma e_layout fuel : forall depth root fs, enc TFile (fst root) -> zok (root, fs) -> trip (fun _ => True) (layout_loop fuel depth root fs) (fun x _ => enc TFile (fst x)) (fun _ => True).
Proof.
  induction fuel as [|f IH]; intros depth root fs Hr Hz; cbn [layout_loop].
  - eapply trip_bind with (Q := fun _ _ => True); [intros d _; now destruct (Done d) as [[| | |] ?]|]. intros dn. apply trip_if; [intros s _; exact Hr|intros s _; exact Logic.I].
  - eapply trip_bind with (Q := fun _ _ => True); [intros d _; now destruct (Done d) as [[| | |] ?]|]. intros dn. apply trip_if; [intros s _; exact Hr|].
    apply trip_bind with (Q := fun (c : xnode * Z) _ => enc TFile (fst (fst c)) /\ zok c).
    + intros d _. apply e_with_new; [apply new_nok|].
      eapply trip_bind; [eapply trip_weaken; [apply (e_AddChild TFile root fs)| |intros a0' s0 H; exact H]; intros s H; split; [exact H|split; [exact Hr|exact Hz]]|]. intros ?. apply e_node_rec.
    + intros [x z] s [H1 H2]. exact (IH _ x z H1 H2 s Logic.I).
Qed.
Lemma e_end t x d : enc t (fst x) -> match bind (Add x) (fun _ => ret (seal (fst x))) d with (Ok n, _) => enc t n | _ => True end.
Proof. intros Hx. rewrite bind_at. destruct (Add x d) as [[[]| | |] d']; try exact Logic.I. now apply enc_seal. Qed.
Lemma e_balanced fuel : trip (fun _ => True) (Balanced.Layout fuel) (fun n _ => enc TFile n) (fun _ => True).
Proof.
  unfold Balanced.Layout. eapply trip_bind with (Q := fun _ _ => True); [intros d _; now destruct (Done d) as [[| | |] ?]|]. intros dn. apply trip_if.
  - intros d _. rewrite bind_at. destruct (NewLeafNode _ _ _) as [n| | |] eqn:En; try exact Logic.I. apply (e_end TFile (n, None)), (leaf_enc TFile (or_introl eq_refl) _ _ _ En).
  - eapply trip_bind; [apply (e_leaf TFile (or_introl eq_refl))|]. intros [x z].
    apply trip_bind with (Q := fun c _ => enc TFile (fst c)); [intros d (H1 & H2); exact (e_layout fuel _ x z H1 H2 d Logic.I)|].
    intros root d H. apply e_end, H.
Qed.
Lemma e_layer : trip (fun s : fsn * db => nok TRaw (fst s)) FillNodeLayer (fun _ s => nok TRaw (fst s)) (fun _ => True).
Proof.
  intros s Hs. unfold FillNodeLayer. refine (trip_bind _ _ (fun s => nok TRaw (fst s)) (fun _ s => nok TRaw (fst s)) (fun _ s => nok TRaw (fst s)) (fun _ => True) _ _ s Hs);
    [apply e_fill, e_leaf; now right|intros u; apply e_commit'].
Qed.
Lemma e_trickle_rec fuel : forall mx, ends TRaw (fillTrickleRec fuel mx).
Proof.
  induction fuel as [|f IH]; intros mx; cbn [fillTrickleRec]; [intros s _; exact Logic.I|]. eapply trip_bind; [apply e_layer|]. intros ?.
  eapply trip_bind; [|intros ?; apply e_commit]. apply e_depth. intros z d _. apply e_with_new; [apply new_nok|apply IH].
Qed.
Lemma e_trickle fuel : trip (fun _ => True) (Trickle.Layout fuel) (fun n _ => enc TRaw n) (fun _ => True).
Proof.
  unfold Trickle.Layout. eapply trip_bind with (Q := fun (c : xnode * Z) _ => enc TRaw (fst (fst c)) /\ zok c); [intros d _; unfold new_subtree; apply e_with_new; [apply new_nok|apply e_trickle_rec]|].
  intros [x z] d (H1 & H2). apply e_end, H1.
Qed.
Lemma e_build t layout dbp fi spl w root w' : trip (fun _ => True) layout (fun n _ => enc t n) (fun _ => True) -> build layout dbp fi spl w = (Ok root, w') -> enc t root.
Proof.
  intros H. unfold build, New. destruct (_ && negb fi); [discriminate|]. set (d := mkDb _ _ _ _ _ _ _ _ _). specialize (H d Logic.I). destruct (layout d) as [[n| | |] d']; try discriminate.
  intros [= -> <-]. exact H.
Qed.

(** ** Leaves *)

(** The block that holds a chunk. *)
Definition chunk_leaf (raw : bool) (b : option prefix) (t : Z) (c : bytes) : node :=
  if raw then NRaw (raw_prefix b) c
  else NProto (proto_prefix b) (match GetBytes (SetData (Some c) (NewFSNode t)) with Ok x => x | _ => [] end) [].
Notation formed b r n := (uniform r (if r%bool then raw_prefix b else proto_prefix b) (proto_prefix b) n).
Lemma uniform_link r p q n l : uniform r p q n -> In l (node_links n) -> uniform r p q (lto l).
Proof. intros H Hl m Hm. apply H. eapply reach_link; eassumption. Qed.
Lemma enc_link t n l : enc t n -> In l (node_links n) -> enc t (lto l).
Proof. intros H Hl m Hm. apply H. eapply reach_link; eassumption. Qed.
Lemma leaf_is b r t n c : is_leaf n -> file_dag n [c] -> formed b r n -> enc t n -> c <> [] -> n = chunk_leaf r b t c.
Proof.
  intros Hl Hf Hu He Hc. destruct (Hu n (reach_self n)) as (H & _). destruct (H Hl) as (_ & H'). unfold chunk_leaf. clear H. destruct r.
  - destruct H' as (x & ->). inversion Hf; subst. reflexivity.
  - destruct H' as (x & ->). destruct (He _ (reach_self _)) as (f & Hg & Eb & H). inversion Hf as [|? ? fs E|? ? fs ? css Hn]; subst; [|contradiction].
    assert (X : FSNodeFromBytes x = Ok f) by (eapply unmarshal_marshal; eassumption). rewrite X in E. injection E as <-. destruct H as [(_ & H & _)|(_ & d & ->)].
    + unfold getData in Hc. now rewrite H in Hc.
    + destruct (SetData_New t d) as (_ & E2 & _). rewrite E2 in *. destruct d as [d|]; [|contradiction]. cbn [obytes]. now rewrite Eb.
Qed.
Lemma leaves_are b r t : forall n cs, file_dag n cs -> formed b r n -> enc t n -> (forall c, In c cs -> c <> []) -> leaves n = map (chunk_leaf r b t) cs.
Proof.
  induction n as [p d|p x ls IH] using DagProofs.node_ind'; intros cs Hf Hu He Hc.
  - inversion Hf; subst. cbn [leaves map]. f_equal. apply leaf_is; auto; [reflexivity|]. apply Hc. now left.
  - inversion Hf as [|? ? fs E|? ? fs ? css Hn _ _ _ _ HF _ _]; subst.
    + cbn [leaves map]. f_equal. apply leaf_is; auto; [reflexivity|]. apply Hc. now left.
    + assert (X : flat_map (fun l => leaves (lto l)) ls = map (chunk_leaf r b t) (concat css)).
      { assert (Hu' : forall l, In l ls -> formed b r (lto l)) by (intros l Hl; eapply uniform_link; eassumption).
        assert (He' : forall l, In l ls -> enc t (lto l)) by (intros l Hl; eapply enc_link; eassumption).
        clear Hf Hn Hu He. revert css HF Hc. induction IH as [|l r0 Hl _ IHr]; intros css HF Hc; cbn [map] in HF; inversion HF as [|? y ? css' H1 H2]; subst; [reflexivity|].
        cbn [flat_map concat]. rewrite map_app. f_equal.
        - apply Hl; auto; [apply Hu'; now left|apply He'; now left|]. intros c Hi. apply Hc. cbn [concat]. apply in_or_app. now left.
        - apply IHr; auto; [intros z Hz; apply Hu'; now right|intros z Hz; apply He'; now right|]. intros c Hi. apply Hc. cbn [concat]. apply in_or_app. now right. }
      destruct ls as [|l ls]; [contradiction|]. exact X.
Qed.

(** ** Whole subtrees *)

Lemma app_same_len {A} (a : list A) : forall a' b b', a ++ b = a' ++ b' -> length a = length a' -> a = a' /\ b = b'.
Proof.
  induction a as [|x a IH]; intros [|x' a'] b b' E L; try discriminate; [auto|]. injection E as -> E. injection L as L. destruct (IH _ _ _ E L) as (-> & ->). auto.
Qed.

Lemma concat_split {A} (k : nat) : forall (a b : list (list A)), Forall (fun x => length x = k) a -> Forall (fun x => length x = k) b -> length a = length b -> concat a = concat b -> a = b.
Proof.
  induction a as [|x a IH]; intros [|y b] Ha Hb Hl E; try discriminate; [reflexivity|]. inversion Ha; subst. inversion Hb; subst. cbn [concat] in E.
  assert (x = y /\ concat a = concat b) as (-> & E'). { apply app_same_len; [exact E|congruence]. }
  f_equal. apply IH; auto.
Qed.
Lemma perfect_same b r k d : 1 <= k -> forall t n n' cs, perfect k d n -> perfect k d n' -> file_dag n cs -> file_dag n' cs -> formed b r n -> formed b r n' -> enc t n -> enc t n' ->
  tsizes_exact n -> tsizes_exact n' -> (forall c, In c cs -> c <> []) -> n = n'.
Proof.
  intros Hk t. induction d as [|d IH]; intros n n' cs P P' F F' U U' E E' S S' Hc.
  - cbn [perfect] in *. pose proof (file_dag_leaf _ _ F P) as L. destruct cs as [|c [|]]; try discriminate. rewrite (leaf_is b r t n c), (leaf_is b r t n' c); auto; apply Hc; now left.
  - cbn [perfect] in *. destruct P as (P1 & P2), P' as (P1' & P2').
    assert (Hne : node_links n <> []) by (intros X; rewrite X in P1; unfold zlen in P1; cbn [length] in P1; lia). assert (Hne' : node_links n' <> []) by (intros X; rewrite X in P1'; unfold zlen in P1'; cbn [length] in P1'; lia).
    assert (Q1 : zlen (node_links n) <= k <= zlen (node_links n)) by lia. assert (Q1' : zlen (node_links n') <= k <= zlen (node_links n')) by lia. clear P1 P1'. rename Q1 into P1, Q1' into P1'.
    inversion F as [|? ? ? ? ? ? ?|p x fs ls css _ N1 D1 _ G1 F1 B1 S1]; subst; [now cbn in Hne|now cbn in Hne|].
    inversion F' as [|? ? ? ? ? ? ?|p' x' fs' ls' css' _ N1' D1' _ G1' F1' B1' S1']; subst; [now cbn in Hne'|now cbn in Hne'|]. cbn [node_links] in *.
    assert (HC : forall ls css, Forall (fun l => perfect k d (lto l)) ls -> Forall2 file_dag (map lto ls) css -> Forall (fun y => length y = Z.to_nat (k ^ Z.of_nat d)) css /\ length css = length ls).
    { clear - Hk. induction ls as [|l ls IH]; intros css HP HF; inversion HF as [|? y ? css' H1 H2]; subst; [split; [constructor|reflexivity]|]. inversion HP; subst.
      destruct (IH _ H4 H2) as (A & B). split; [|cbn [length]; now rewrite B]. constructor; [|exact A]. pose proof (perfect_count k d Hk _ _ H1 H3) as X. unfold zlen in X. lia. }
    destruct (HC _ _ P2 F1) as (A1 & A2), (HC _ _ P2' F1') as (A1' & A2').
    assert (El : length ls = length ls') by (unfold zlen in *; lia).
    assert (css' = css) as -> by (eapply concat_split; [exact A1'|exact A1|congruence|congruence]).
    assert (HL : ls = ls').
    { assert (U2 : forall l, In l ls -> formed b r (lto l)) by (intros l Hl; exact (uniform_link _ _ _ _ _ U Hl)).
      assert (U2' : forall l, In l ls' -> formed b r (lto l)) by (intros l Hl; exact (uniform_link _ _ _ _ _ U' Hl)).
      assert (E2 : forall l, In l ls -> enc t (lto l)) by (intros l Hl; exact (enc_link _ _ _ E Hl)).
      assert (E2' : forall l, In l ls' -> enc t (lto l)) by (intros l Hl; exact (enc_link _ _ _ E' Hl)).
      assert (S2 : forall l, In l ls -> lsize l = mod64 (cumulative (lto l)) /\ tsizes_exact (lto l)).
      { intros l Hl. split; [apply (S _ l (reach_self _) Hl)|]. intros m z Hm Hz. apply (S m z); [eapply reach_link; eassumption|exact Hz]. }
      assert (S2' : forall l, In l ls' -> lsize l = mod64 (cumulative (lto l)) /\ tsizes_exact (lto l)).
      { intros l Hl. split; [apply (S' _ l (reach_self _) Hl)|]. intros m z Hm Hz. apply (S' m z); [eapply reach_link; eassumption|exact Hz]. }
      repeat match goal with X : concat css = concat css |- _ => clear X end. clear F F' U U' E E' S S' P1 P1' Hne Hne' D1 D1' B1 B1' S1 S1' G1 G1' A1 A2 A1' A2'.
      revert ls' css P2' N1' F1' El U2' E2' S2' F1 Hc. induction ls as [|l ls IHl]; intros [|l' ls'] css P2' N1' F1' El U2' E2' S2' F1 Hc; try discriminate; [reflexivity|].
      cbn [map] in *. inversion F1 as [|? y ? css0 X1 X2]; subst. inversion F1' as [|? ? ? ? X1' X2']; subst. inversion P2; subst. inversion P2'; subst. inversion N1; subst. inversion N1'; subst.
      assert (T : lto l = lto l').
      { apply (IH _ _ y); auto; try (apply U2; now left); try (apply U2'; now left); try (apply E2; now left); try (apply E2'; now left).
        - apply (proj2 (S2 l (or_introl eq_refl))).
        - apply (proj2 (S2' l' (or_introl eq_refl))).
        - intros c Hi. apply Hc. cbn [concat]. apply in_or_app. now left. }
      f_equal.
      - destruct (S2 l (or_introl eq_refl)) as (Z1 & _), (S2' l' (or_introl eq_refl)) as (Z1' & _). destruct l as [nm sz to], l' as [nm' sz' to']. cbn in *. congruence.
      - eapply IHl; auto; try (intros z Hz; first [apply U2; now right|apply U2'; now right|apply E2; now right|apply E2'; now right|apply S2; now right|apply S2'; now right]); try eassumption.
        intros c Hi. apply Hc. cbn [concat]. apply in_or_app. now right. }
    subst ls'. destruct (U _ (reach_self _)) as (_ & Up), (U' _ (reach_self _)) as (_ & Up'). specialize (Up Hne). specialize (Up' Hne). cbn [node_prefix] in *.
    assert (Ex : x = x').
    { assert (HB : forall x fs, FSNodeFromBytes x = Ok fs -> enc1 t (NProto p x ls) -> bare fs /\ GetBytes fs = Ok x).
      { intros y g Ey (f & Hg & Hb & [H|(H & _)]); [|contradiction]. assert (X : FSNodeFromBytes y = Ok f) by (eapply unmarshal_marshal; eassumption). split; congruence. }
      destruct (HB x fs D1 (E _ (reach_self _))) as ((T1 & T2 & T3 & T4 & T5) & T6), (HB x' fs' D1' (E' _ (reach_self _))) as ((T1' & T2' & T3' & T4' & T5') & T6').
      assert (fs = fs'); [|congruence]. destruct fs as [a1 a2 a3 a4 a5 a6 a7], fs' as [c1 c2 c3 c4 c5 c6 c7]. cbn in *. congruence. }
    congruence.
Qed.

(** ** Aligned runs of chunks *)

Lemma full_perfect k d : 1 <= k -> forall n cs, file_dag n cs -> left_full k d n -> zlen cs = k ^ Z.of_nat d -> perfect k d n.
Proof.
  intros Hk. induction d as [|d IH]; intros n cs Hf Hl Hc; [exact Hl|]. cbn [left_full perfect] in *. destruct Hl as (ls & l & E & H1 & H2 & H3). rewrite E.
  destruct (file_dag_links n cs Hf) as [E0|(css & F & ->)]; [rewrite E0 in E; now destruct ls|].
  rewrite E, map_app in F. apply Forall2_app_l in F as (c1 & c2 & -> & F1 & F2). inversion F2 as [|? y ? r Fl Fr]; subst. inversion Fr; subst.
  rewrite concat_app in Hc. cbn [concat] in Hc. rewrite app_nil_r in Hc. rewrite zlen_app in Hc.
  assert (Z1 : zlen (concat c1) = zlen ls * k ^ Z.of_nat d).
  { clear - Hk H2 F1. revert c1 F1. induction H2 as [|z ls P _ IH]; intros c1 F1; cbn [map] in F1; inversion F1 as [|? y ? r A B]; subst; [unfold zlen; cbn; lia|].
    cbn [concat]. rewrite zlen_app, (IH _ B), (perfect_count k d Hk _ _ A P). unfold zlen. cbn [length]. lia. }
  pose proof (left_full_count k d Hk _ _ Fl H3) as Z2. rewrite Nat2Z.inj_succ, Z.pow_succ_r in Hc by lia.
  assert (Hp : 0 < k ^ Z.of_nat d) by (apply Z.pow_pos_nonneg; lia). rewrite zlen_app in H1. change (zlen [l]) with 1 in H1.
  assert (Hz : zlen ls = k - 1) by nia. rewrite zlen_app. change (zlen [l]) with 1. split; [lia|]. apply Forall_app. split; [exact H2|]. constructor; [|constructor].
  apply (IH _ y); auto. nia.
Qed.

Lemma run_inside {A} (S : Z) : 0 < S -> forall (css : list (list A)) (last : list A) pre cs post,
  Forall (fun y => exists q, zlen y = q * S) css -> concat css ++ last = pre ++ cs ++ post -> (exists j, zlen pre = j * S) -> zlen cs = S ->
  exists a y b pre' post', css ++ [last] = a ++ y :: b /\ y = pre' ++ cs ++ post' /\ exists j, zlen pre' = j * S.
Proof.
  intros HS. induction css as [|y css IH]; intros last pre cs post Hc E (j & Hj) Hs.
  - cbn in E. exists [], last, [], pre, post. split; [reflexivity|]. split; [exact E|eauto].
  - inversion Hc as [|? ? (q & Hq) Hc']; subst x l. cbn [concat] in E. rewrite <- app_assoc in E.
    destruct (Z_lt_le_dec (zlen pre) (zlen y)) as [L|L].
    + assert (L2 : zlen pre + S <= zlen y). { rewrite Hj, Hq in *. assert (j < q) by (apply Z.mul_lt_mono_pos_r with S; assumption). nia. }
      assert (X : y = pre ++ cs ++ skipn (length (pre ++ cs)) y).
      { rewrite app_assoc. rewrite <- (firstn_skipn (length (pre ++ cs)) y) at 1. f_equal. rewrite (app_assoc pre cs post) in E. apply (f_equal (firstn (length (pre ++ cs)))) in E.
        rewrite (firstn_app _ y), (firstn_app _ (pre ++ cs) post), firstn_all, Nat.sub_diag in E. cbn [firstn] in E. rewrite app_nil_r in E.
        assert (Hn : (length (pre ++ cs) - length y = 0)%nat) by (rewrite app_length; unfold zlen in *; lia). rewrite Hn in E. cbn [firstn] in E. rewrite app_nil_r in E. exact E. }
      exists [], y, (css ++ [last]), pre, (skipn (length (pre ++ cs)) y). split; [reflexivity|]. split; [exact X|eauto].
    + assert (X : pre = y ++ skipn (length y) pre).
      { rewrite <- (firstn_skipn (length y) pre) at 1. f_equal. apply (f_equal (firstn (length y))) in E. rewrite (firstn_app _ y), (firstn_app _ pre), firstn_all, Nat.sub_diag in E. cbn [firstn] in E.
        assert (Hn : (length y - length pre = 0)%nat) by (unfold zlen in *; lia). rewrite Hn in E. cbn [firstn] in E. rewrite !app_nil_r in E. now symmetry. }
      set (p2 := skipn (length y) pre) in *. rewrite X in E, Hj. rewrite <- app_assoc in E. apply app_inv_head in E. rewrite zlen_app in Hj.
      destruct (IH last p2 cs post Hc' E) as (a & y' & b & pre' & post' & E1 & E2 & E3); [exists (j - q); nia|exact Hs|].
      exists (y :: a), y', b, pre', post'. cbn [app]. split; [now rewrite E1|]. auto.
Qed.

Lemma aligned k d : 1 <= k -> forall dp n pre cs post, left_full k dp n -> file_dag n (pre ++ cs ++ post) -> (d <= dp)%nat ->
  zlen cs = k ^ Z.of_nat d -> (exists j, zlen pre = j * k ^ Z.of_nat d) -> exists m, reach n m /\ perfect k d m /\ file_dag m cs.
Proof.
  intros Hk. assert (Hp : 0 < k ^ Z.of_nat d) by (apply Z.pow_pos_nonneg; lia).
  induction dp as [|dp IH]; intros n pre cs post Hl Hf Hd Hc (j & Hj).
  - assert (d = 0%nat) as -> by lia. pose proof (left_full_count k 0 Hk _ _ Hf Hl) as L. rewrite !zlen_app in L. change (k ^ Z.of_nat 0) with 1 in *.
    destruct pre; [|unfold zlen in *; cbn [length] in *; lia]. destruct post; [|unfold zlen in *; cbn [length] in *; lia]. cbn [app] in Hf. rewrite app_nil_r in Hf.
    exists n. split; [apply reach_self|]. split; [exact Hl|exact Hf].
  - destruct (Nat.eq_dec d (S dp)) as [->|Hne].
    + pose proof (left_full_count k _ Hk _ _ Hf Hl) as L. rewrite !zlen_app in L.
      destruct pre; [|unfold zlen in *; cbn [length] in *; lia]. destruct post; [|unfold zlen in *; cbn [length] in *; lia]. cbn [app] in Hf. rewrite app_nil_r in Hf.
      exists n. split; [apply reach_self|]. split; [|exact Hf]. now apply (full_perfect k _ Hk n cs).
    + cbn [left_full] in Hl. destruct Hl as (ls & l & E & H1 & H2 & H3).
      destruct (file_dag_links n _ Hf) as [E0|(css & F & Ec)]; [rewrite E0 in E; now destruct ls|].
      rewrite E, map_app in F. apply Forall2_app_l in F as (c1 & c2 & -> & F1 & F2). inversion F2 as [|? y ? r Fl Fr]; subst. inversion Fr; subst.
      rewrite concat_app in Ec. cbn [concat] in Ec. rewrite app_nil_r in Ec.
      assert (Hq : Forall (fun y => exists q, zlen y = q * k ^ Z.of_nat d) c1).
      { clear - Hk H2 F1 Hd Hne. revert c1 F1. induction H2 as [|z ls P _ IH]; intros c1 F1; cbn [map] in F1; inversion F1 as [|? y ? r A B]; subst; constructor; [|now apply IH].
        exists (k ^ Z.of_nat (dp - d)). rewrite (perfect_count k dp Hk _ _ A P), <- Z.pow_add_r by lia. f_equal. lia. }
      destruct (run_inside _ Hp c1 y pre cs post Hq (eq_sym Ec) (ex_intro _ j Hj) Hc) as (a & y' & b & pre' & post' & E1 & E2 & E3).
      assert (X : exists z, In z (node_links n) /\ left_full k dp (lto z) /\ file_dag (lto z) y').
      { assert (FF : Forall2 file_dag (map lto (ls ++ [l])) (a ++ y' :: b)) by (rewrite <- E1, map_app; apply Forall2_app; [exact F1|repeat constructor; exact Fl]).
        apply Forall2_app_inv_r in FF as (u & v & Fu & Fv & Ev). inversion Fv as [|z0 ? v' ? Fz Fr']; subst.
        assert (Hin : In z0 (map lto (ls ++ [l]))) by (rewrite Ev; apply in_or_app; right; now left). apply in_map_iff in Hin as (z & <- & Hz). exists z. rewrite E. split; [exact Hz|]. split; [|exact Fz].
        apply in_app_iff in Hz as [Hz|[<-|[]]]; [|exact H3]. apply perfect_left_full; [exact Hk|]. rewrite Forall_forall in H2. now apply H2. }
      destruct X as (z & Hz & Hzl & Hzf). rewrite E2 in Hzf. destruct (IH (lto z) pre' cs post' Hzl Hzf ltac:(lia) Hc E3) as (m & Hm & Hm').
      exists m. split; [eapply reach_link; eassumption|exact Hm'].
Qed.

(** ** Imports *)

Section Share.
  Variables (trickle : bool) (dbp : params).
  Definition ltype : Z := if trickle then TRaw else TFile.
  Lemma imported_facts chunks root : imported trickle dbp chunks root ->
    file_dag root chunks /\ formed (pr_builder dbp) (pr_raw dbp) root /\ enc ltype root /\ tsizes_exact root /\ chunks <> [] /\ (forall c, In c chunks -> c <> []).
  Proof.
    unfold ltype. intros (Hne & Hc & fuel & fi & w & w' & H). split; [|split; [|split; [|split; [|split; [exact Hne|exact Hc]]]]].
    - destruct (imports_dag chunks root) as (cs & Hf & [(-> & _)| ->]); [|contradiction|exact Hf].
      unfold imports. destruct trickle; [destruct H as (H1 & H2 & H3); right; eauto 10|left; eauto 10].
    - destruct trickle; [destruct H as (H1 & H2 & H3); refine (trickle_formats _ _ _ _ _ _ _ H1 _ _ H3); [now rewrite map_length|destruct chunks; [contradiction|discriminate]]|eapply balanced_formats, H].
    - destruct trickle; [destruct H as (H1 & H2 & H3); eapply e_build; [apply e_trickle|exact H3]|eapply e_build; [apply e_balanced|exact H]].
    - destruct trickle; [destruct H as (H1 & H2 & H3); refine (trickle_tsize _ _ _ _ _ _ _ H1 _ H3); now rewrite map_length|eapply balanced_tsize, H].
  Qed.
End Share.

Lemma leaves_reach : forall n m, In m (leaves n) -> reach n m.
Proof.
  induction n as [p d|p x ls IH] using DagProofs.node_ind'; intros m Hm; [destruct Hm as [<-|[]]; apply reach_self|].
  destruct ls as [|l ls]; [destruct Hm as [<-|[]]; apply reach_self|].
  change (In m (flat_map (fun l => leaves (lto l)) (l :: ls))) in Hm. apply in_flat_map in Hm as (z & Hz & Hm). rewrite Forall_forall in IH.
  eapply reach_link; [exact Hz|]. now apply IH.
Qed.
Lemma leaves_dag : forall n cs, file_dag n cs -> Forall2 (fun m c => file_dag m [c]) (leaves n) cs.
Proof.
  induction n as [p d|p x ls IH] using DagProofs.node_ind'; intros cs Hf.
  - inversion Hf; subst. repeat constructor.
  - inversion Hf as [|? ? fs E|? ? fs ? css Hn _ _ _ _ HF _ _]; subst; [constructor; [exact Hf|constructor]|].
    assert (X : Forall2 (fun m c => file_dag m [c]) (flat_map (fun l => leaves (lto l)) ls) (concat css)).
    { clear Hf Hn. revert css HF. induction IH as [|l r0 Hl _ IHr]; intros css HF; cbn [map] in HF; inversion HF as [|? y ? css' H1 H2]; subst; [constructor|].
      cbn [flat_map concat]. apply Forall2_app; auto. }
    destruct ls; [contradiction|exact X].
Qed.

Lemma share_leaves : forall trickle raw b, exists leaf : bytes -> node, forall dbp chunks root, pr_raw dbp = raw -> pr_builder dbp = b ->
  imported trickle dbp chunks root -> leaves root = map leaf chunks /\ forall c, In c chunks -> file_dag (leaf c) [c].
Proof.
  intros trickle raw b. exists (chunk_leaf raw b (ltype trickle)). intros dbp chunks root <- <- H. destruct (imported_facts _ _ _ _ H) as (H1 & H2 & H3 & _ & _ & H6).
  pose proof (leaves_are _ _ _ _ _ H1 H2 H3 H6) as E. split; [exact E|]. intros c Hc. pose proof (leaves_dag _ _ H1) as D. rewrite E in D. clear - D Hc.
  set (f := chunk_leaf _ _ _) in *. clearbody f. revert D Hc. induction chunks as [|x r IH]; intros D Hc; [contradiction|]. cbn [map] in D. inversion D; subst. destruct Hc as [<-|Hc]; auto.
Qed.
Lemma share_raw : forall trickle dbp chunks root, pr_raw dbp = true -> imported trickle dbp chunks root -> leaves root = map (NRaw (raw_prefix (pr_builder dbp))) chunks.
Proof.
  intros trickle dbp chunks root Hr H. destruct (imported_facts _ _ _ _ H) as (H1 & H2 & H3 & _ & _ & H6). rewrite (leaves_are _ _ _ _ _ H1 H2 H3 H6), Hr. reflexivity.
Qed.
Lemma share_chunk : forall t1 t2 p1 p2 cs1 cs2 r1 r2 c, pr_raw p1 = pr_raw p2 -> pr_builder p1 = pr_builder p2 -> (t1 = t2 \/ pr_raw p1 = true) ->
  imported t1 p1 cs1 r1 -> imported t2 p2 cs2 r2 -> In c cs1 -> In c cs2 -> exists m, reach r1 m /\ reach r2 m /\ file_dag m [c].
Proof.
  intros t1 t2 p1 p2 cs1 cs2 r1 r2 c Er Eb Ht H1 H2 Hc1 Hc2. destruct (imported_facts _ _ _ _ H1) as (A1 & A2 & A3 & _ & _ & A6). destruct (imported_facts _ _ _ _ H2) as (B1 & B2 & B3 & _ & _ & B6).
  pose proof (leaves_are _ _ _ _ _ A1 A2 A3 A6) as L1. pose proof (leaves_are _ _ _ _ _ B1 B2 B3 B6) as L2. rewrite <- Er, <- Eb in L2.
  set (m := chunk_leaf (pr_raw p1) (pr_builder p1) (ltype t1) c).
  assert (Em : m = chunk_leaf (pr_raw p1) (pr_builder p1) (ltype t2) c) by (subst m; destruct Ht as [-> |Ht]; [reflexivity|unfold chunk_leaf; now rewrite Ht]).
  exists m. split; [apply leaves_reach; rewrite L1; now apply in_map|]. split; [apply leaves_reach; rewrite L2, Em; now apply in_map|].
  destruct (share_leaves t1 (pr_raw p1) (pr_builder p1)) as (leaf & Hl). destruct (Hl p1 cs1 r1 eq_refl eq_refl H1) as (E & D). rewrite L1 in E.
  assert (X : m = leaf c). { clear - E Hc1. subst m. revert E Hc1. induction cs1 as [|x r IH]; intros E Hc; [contradiction|]. cbn [map] in E. injection E as E0 E. destruct Hc as [<-|Hc]; auto. }
  rewrite X. auto.
Qed.

Lemma reach_trans a b c : reach a b -> reach b c -> reach a c.
Proof. induction 1 as [|? ? ? ? Hm IH]; intros Hb; [exact Hb|]. eapply reach_link; [eassumption|auto]. Qed.
Lemma uniform_reach r p q n m : uniform r p q n -> reach n m -> uniform r p q m.
Proof. intros H Hm x Hx. apply H. eapply reach_trans; eassumption. Qed.
Lemma run_at dbp chunks root d pre cs post : 2 <= pr_maxlinks dbp -> imported false dbp chunks root -> chunks = pre ++ cs ++ post ->
  zlen cs = pr_maxlinks dbp ^ Z.of_nat d -> (exists j, zlen pre = j * pr_maxlinks dbp ^ Z.of_nat d) -> exists m, reach root m /\ perfect (pr_maxlinks dbp) d m /\ file_dag m cs.
Proof.
  intros Hk H -> Hc Hj. destruct (imported_facts _ _ _ _ H) as (Hf & _). destruct H as (_ & _ & fuel & fi & w & w' & H). cbv iota in H.
  destruct (balanced_facts _ _ _ _ _ _ _ H) as (_ & _ & dp & cs' & Hl & Hf' & Hb). apply (aligned (pr_maxlinks dbp) d ltac:(lia) dp root pre cs post Hl Hf); auto.
  pose proof (left_full_count (pr_maxlinks dbp) dp ltac:(lia) _ _ Hf Hl) as L. rewrite !zlen_app in L. rewrite Hc in L. assert (X : pr_maxlinks dbp ^ Z.of_nat d <= pr_maxlinks dbp ^ Z.of_nat dp) by (pose proof (Nat2Z.is_nonneg (length pre)); pose proof (Nat2Z.is_nonneg (length post)); unfold zlen in L; lia).
  apply Z.pow_le_mono_r_iff in X; lia.
Qed.
Lemma share_run : forall p1 p2 cs1 cs2 r1 r2 d pre1 pre2 cs post1 post2, 2 <= pr_maxlinks p1 -> pr_maxlinks p1 = pr_maxlinks p2 -> pr_raw p1 = pr_raw p2 -> pr_builder p1 = pr_builder p2 ->
  imported false p1 cs1 r1 -> imported false p2 cs2 r2 -> cs1 = pre1 ++ cs ++ post1 -> cs2 = pre2 ++ cs ++ post2 ->
  zlen cs = pr_maxlinks p1 ^ Z.of_nat d -> (exists j, zlen pre1 = j * pr_maxlinks p1 ^ Z.of_nat d) -> (exists j, zlen pre2 = j * pr_maxlinks p1 ^ Z.of_nat d) ->
  exists m, reach r1 m /\ reach r2 m /\ perfect (pr_maxlinks p1) d m /\ file_dag m cs.
Proof.
  intros p1 p2 cs1 cs2 r1 r2 d pre1 pre2 cs post1 post2 Hk Ek Er Eb H1 H2 E1 E2 Hc J1 J2.
  destruct (run_at _ _ _ d _ _ _ Hk H1 E1 Hc J1) as (m & M1 & M2 & M3). rewrite Ek in Hk, Hc, J2. destruct (run_at _ _ _ d _ _ _ Hk H2 E2 Hc J2) as (m' & M1' & M2' & M3').
  destruct (imported_facts _ _ _ _ H1) as (_ & A2 & A3 & A4 & _ & A6). destruct (imported_facts _ _ _ _ H2) as (_ & B2 & B3 & B4 & _). rewrite <- Er, <- Eb in B2. rewrite <- Ek in M2'.
  assert (m = m') as <-; [|exists m; auto].
  apply (perfect_same (pr_builder p1) (pr_raw p1) (pr_maxlinks p1) d ltac:(lia) TFile m m' cs); auto.
  - exact (uniform_reach _ _ _ _ _ A2 M1).
  - exact (uniform_reach _ _ _ _ _ B2 M1').
  - intros x Hx. apply A3. exact (reach_trans _ _ _ M1 Hx).
  - intros x Hx. apply B3. exact (reach_trans _ _ _ M1' Hx).
  - intros x l Hx. apply A4. exact (reach_trans _ _ _ M1 Hx).
  - intros x l Hx. apply B4. exact (reach_trans _ _ _ M1' Hx).
  - intros c Hi. apply A6. rewrite E1. apply in_or_app. right. apply in_or_app. now left.
Qed.
Lemma share_whole : forall p1 p2 whole root cs sub d pre post, 2 <= pr_maxlinks p1 -> pr_maxlinks p1 = pr_maxlinks p2 -> pr_raw p1 = pr_raw p2 -> pr_builder p1 = pr_builder p2 ->
  imported false p1 whole root -> imported false p2 cs sub -> whole = pre ++ cs ++ post ->
  zlen cs = pr_maxlinks p1 ^ Z.of_nat d -> (exists j, zlen pre = j * pr_maxlinks p1 ^ Z.of_nat d) -> reach root sub.
Proof.
  intros p1 p2 whole root cs sub d pre post Hk Ek Er Eb H1 H2 E Hc Hj.
  destruct (run_at _ _ _ d _ _ _ Hk H1 E Hc Hj) as (m & M1 & M2 & M3).
  assert (P : perfect (pr_maxlinks p1) d sub).
  { destruct (imported_facts _ _ _ _ H2) as (Hf & _). destruct H2 as (_ & _ & fuel & fi & w & w' & H). cbv iota in H. rewrite Ek in Hk, Hc |- *.
    destruct (balanced_facts _ _ _ _ _ _ _ H) as (_ & _ & dp & cs' & Hl & Hf' & Hb).
    assert (cs' = cs) as -> by (eapply file_dag_fun; eassumption).
    pose proof (left_full_count (pr_maxlinks p2) dp ltac:(lia) _ _ Hf Hl) as L. rewrite Hc in L, Hb. apply Z.pow_le_mono_r_iff in L; [|lia|lia].
    assert (dp = d) as ->.
    { destruct (Nat.eq_dec dp 0) as [->|Hz]; [lia|]. destruct (Hb ltac:(lia)) as (_ & X). apply Z.pow_lt_mono_r_iff in X; lia. }
    apply (full_perfect (pr_maxlinks p2) d ltac:(lia) _ cs); auto. }
  destruct (imported_facts _ _ _ _ H1) as (_ & A2 & A3 & A4 & _ & A6). destruct (imported_facts _ _ _ _ H2) as (B1 & B2 & B3 & B4 & _ & B6). rewrite <- Er, <- Eb in B2.
  assert (m = sub) as <-; [|exact M1].
  apply (perfect_same (pr_builder p1) (pr_raw p1) (pr_maxlinks p1) d ltac:(lia) TFile m sub cs); auto.
  - exact (uniform_reach _ _ _ _ _ A2 M1).
  - intros x Hx. apply A3. exact (reach_trans _ _ _ M1 Hx).
  - intros x l Hx. apply A4. exact (reach_trans _ _ _ M1 Hx).
Qed.

(** ** Where nothing is shared *)

Fixpoint reached_list (n : node) : list node := n :: match n with NRaw _ _ => [] | NProto _ _ ls => flat_map (fun l => reached_list (lto l)) ls end.
Lemma reached_list_iff n m : reach n m -> In m (reached_list n).
Proof.
  revert m. induction n as [q d|q d ls IH] using DagProofs.node_ind'; intros m Hm; cbn [reached_list].
  - inversion Hm; subst; [now left|contradiction].
  - inversion Hm as [|? l ? Hl Hm' E1 E2]; subst; [now left|]. right. apply in_flat_map. exists l. split; [exact Hl|]. rewrite Forall_forall in IH. now apply IH.
Qed.
(** What distinguishes the blocks below: the type in their data and the data of their leaves. *)
Definition key_of (m : node) : Z * list bytes :=
  (match m with NProto _ b _ => match FSNodeFromBytes b with Ok f => getType f | _ => -1 end | NRaw _ _ => -2 end,
   map (fun x => match x with NRaw _ d => d | NProto _ d _ => d end) (leaves m)).
Definition key_dec : forall x y : Z * list bytes, {x = y} + {x <> y}.
Proof. decide equality; [apply list_eq_dec, list_eq_dec, Byte.byte_eq_dec|apply Z.eq_dec]. Defined.
Definition apart (p : node -> bool) (a b : node) : bool :=
  forallb (fun m => p m || negb (existsb (fun m' => if key_dec (key_of m) (key_of m') then negb (p m') else false) (reached_list b))) (reached_list a).
Lemma apart_ok p a b : apart p a b = true -> forall m, reach a m -> reach b m -> p m = true.
Proof.
  unfold apart. rewrite forallb_forall. intros H m Ha Hb. specialize (H m (reached_list_iff _ _ Ha)). destruct (p m) eqn:Ep; [reflexivity|]. cbn [orb] in H.
  apply negb_true_iff in H. rewrite <- H. apply existsb_exists. exists m. split; [now apply reached_list_iff|]. destruct (key_dec (key_of m) (key_of m)); [now rewrite Ep|congruence].
Qed.

Definition two_links (raw : bool) : params := mkParams 2 raw None false.
Definition four : list bytes := [[x61]; [x62]; [x63]; [x64]].
Definition bal (raw : bool) (cs : list bytes) : node := ok_node (fst (balanced_import 9 (two_links raw) false (map EvData cs) astore)).
Definition tri (raw : bool) (cs : list bytes) : node := ok_node (fst (trickle_import 9 (two_links raw) false (map EvData cs) astore)).
Lemma full_chunks (cs : list bytes) : forallb (fun c => negb (zlen c =? 0)) cs = true -> forall c, In c cs -> c <> [].
Proof. rewrite forallb_forall. intros H c Hc ->. now specialize (H [] Hc). Qed.
Lemma bal_imported raw cs : fst (balanced_import 9 (two_links raw) false (map EvData cs) astore) = Ok (bal raw cs) -> cs <> [] -> forallb (fun c => negb (zlen c =? 0)) cs = true ->
  imported false (two_links raw) cs (bal raw cs).
Proof.
  intros H Hn Hc. split; [exact Hn|]. split; [now apply full_chunks|]. exists 9%nat, false, astore. destruct (balanced_import 9 _ false _ astore) as [r w']. exists w'. cbn [fst] in H. now rewrite H.
Qed.
Lemma tri_imported raw cs : fst (trickle_import 9 (two_links raw) false (map EvData cs) astore) = Ok (tri raw cs) -> cs <> [] -> (length cs < 9)%nat -> forallb (fun c => negb (zlen c =? 0)) cs = true ->
  imported true (two_links raw) cs (tri raw cs).
Proof.
  intros H Hn Hl Hc. split; [exact Hn|]. split; [now apply full_chunks|]. exists 9%nat, false, astore. destruct (trickle_import 9 _ false _ astore) as [r w']. exists w'. cbn [fst] in H. rewrite H.
  split; [cbn; lia|]. split; [exact Hl|reflexivity].
Qed.
Lemma layouts_refuted : exists dbp chunks r1 r2, imported false dbp chunks r1 /\ imported true dbp chunks r2 /\ forall m, reach r1 m -> ~ reach r2 m.
Proof.
  exists (two_links false), four, (bal false four), (tri false four). split; [apply bal_imported; [vm_compute; reflexivity|discriminate|reflexivity]|].
  split; [apply tri_imported; [vm_compute; reflexivity|discriminate|cbn; lia|reflexivity]|]. intros m H1 H2.
  assert (X : apart (fun _ => false) (bal false four) (tri false four) = true) by (vm_compute; reflexivity). discriminate (apart_ok _ _ _ X m H1 H2).
Qed.
Lemma shift_refuted : exists dbp c chunks r1 r2, (4 <= length chunks)%nat /\ imported false dbp chunks r1 /\ imported false dbp (c :: chunks) r2 /\
  forall m, reach r1 m -> reach r2 m -> node_links m = [].
Proof.
  exists (two_links true), [x7a], four, (bal true four), (bal true ([x7a] :: four)). split; [cbn; lia|]. split; [apply bal_imported; [vm_compute; reflexivity|discriminate|reflexivity]|].
  split; [apply bal_imported; [vm_compute; reflexivity|discriminate|reflexivity]|]. intros m H1 H2.
  assert (X : apart (fun m => match node_links m with [] => true | _ => false end) (bal true four) (bal true ([x7a] :: four)) = true) by (vm_compute; reflexivity).
  pose proof (apart_ok _ _ _ X m H1 H2) as Y. clear - Y. cbv beta in Y. destruct (node_links m); [reflexivity|discriminate Y].
Qed.
