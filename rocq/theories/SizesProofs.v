(** Link sizes stay exact and leaves canonically encoded, whatever a builder, an
    append or a modifier does and however it ends. *)
From Coq Require Import Permutation.
From Verif Require Import Base Pb PbProofs FSNode FSNodeProofs Dag DagProofs Builder Balanced Trickle Importer Reader Modifier SpecFile SpecModifier
  BuilderProofs AppendProofs GrowProofs ModifierProofs ModifierRun ModifierFacts.

Definition fine (n : node) : Prop := tsizes_exact n /\ canonical_leaves n.
Definition elink (l : link) : Prop := lsize l = mod64 (cumulative (lto l)) /\ fine (lto l).
Definition encoded (b : bytes) : Prop := exists f, FSNodeFromBytes b = Ok f /\ GetBytes f = Ok b.

Lemma In_lsort {A} (l : plink A) ls : In l (lsort ls) <-> In l ls.
Proof.
  assert (I1 : forall x (m : list (plink A)), In l (linsert x m) <-> l = x \/ In l m).
  { intros x. induction m as [|y m IH]; cbn [linsert]; [cbn; intuition|]. destruct (_ : bool); cbn [In]; rewrite ?IH; intuition. }
  induction ls as [|x ls IH]; cbn [lsort]; [reflexivity|]. rewrite I1, IH. cbn [In]. intuition.
Qed.
Lemma lsort_nil {A} (ls : list (plink A)) : lsort ls = [] -> ls = [].
Proof. destruct ls as [|x r]; [reflexivity|]. intros E. assert (Hx : In x (lsort (x :: r))) by (apply In_lsort; now left). rewrite E in Hx. destruct Hx. Qed.

Lemma fine_raw p d : fine (NRaw p d).
Proof.
  split; [apply tsizes_node; constructor|]. intros q b H. inversion H as [|? l ? Hl]; subst; destruct Hl.
Qed.
Lemma fine_node p b ls : (ls = [] -> encoded b) -> (forall l, In l ls -> elink l) -> fine (NProto p b ls).
Proof.
  intros Hb H. split.
  - apply tsizes_node. apply Forall_forall. intros l Hl. destruct (H l Hl) as (E & F). split; [exact E|apply F].
  - intros q b' Hr. inversion Hr as [|? l ? Hl Hr']; subst; [now apply Hb|]. destruct (H l Hl) as (_ & F). exact (proj2 F q b' Hr').
Qed.
Lemma fine_links n l : fine n -> In l (node_links n) -> elink l.
Proof.
  intros (H1 & H2) Hl. split; [exact (H1 n l (reach_self n) Hl)|]. split.
  - intros m l' Hr Hl'. apply (H1 m l'); [|exact Hl']. econstructor; eassumption.
  - intros p b Hr. eapply H2, reach_link; eassumption.
Qed.
Lemma fine_leaf p b : fine (NProto p b []) -> encoded b.
Proof. intros (_ & H). exact (H p b (reach_self _)). Qed.
Lemma fine_seal n : fine n -> fine (seal n).
Proof.
  destruct n as [p d|p b ls]; [auto|]. intros H. cbn [seal]. apply fine_node.
  - intros E. apply lsort_nil in E. subst ls. eapply fine_leaf, H.
  - intros l Hl. apply (fine_links _ l H). now apply In_lsort.
Qed.
Lemma fine_size n : fine n -> node_size n = mod64 (cumulative n).
Proof. intros (H & _). apply node_size_exact, tsizes_links, H. Qed.

(** Cumulative sizes do not depend on the order of the links. *)
Lemma sum_perm l l' : Permutation l l' -> sumZ l = sumZ l'.
Proof. unfold sumZ. induction 1; cbn [fold_right] in *; lia. Qed.
Lemma lsort_perm' {A} (ls : list (plink A)) : Permutation (lsort ls) ls.
Proof.
  assert (I1 : forall x (m : list (plink A)), Permutation (linsert x m) (x :: m)).
  { intros x. induction m as [|y m IH]; cbn [linsert]; [constructor; constructor|]. destruct (_ : bool); [|apply Permutation_refl]. eapply perm_trans; [apply perm_skip, IH|apply perm_swap]. }
  induction ls as [|x ls IH]; cbn [lsort]; [constructor|]. eapply perm_trans; [apply I1|]. now apply perm_skip.
Qed.
Definition csum (ls : list link) : Z := sumZ (map (fun l => cumulative (lto l)) ls).
Definition lsum (ls : list link) : Z := sumZ (map link_len ls).
Lemma cum_node p b ls : cumulative (NProto p b ls) = lsum ls + (if zlen b =? 0 then 0 else 1 + vlen (zlen b) + zlen b) + csum ls.
Proof. reflexivity. Qed.
Lemma csum_sort ls : csum (lsort ls) = csum ls.
Proof. apply sum_perm, Permutation_map, lsort_perm'. Qed.
Lemma lsum_sort ls : lsum (lsort ls) = lsum ls.
Proof. apply sum_perm, Permutation_map, lsort_perm'. Qed.
Lemma cum_seal n : cumulative (seal n) = cumulative n.
Proof. destruct n as [p d|p b ls]; [reflexivity|]. cbn [seal]. now rewrite !cum_node, csum_sort, lsum_sort. Qed.
Lemma elink_make nm n : fine n -> elink (make_link nm n).
Proof. intros H. split; cbn [make_link lsize lto]; [|now apply fine_seal]. now rewrite cum_seal, fine_size. Qed.

(** Nodes under construction. *)
Definition tgood (f : FSNode) : Prop := good_data f /\ d_type f <> None.
Definition below (n : fsn) : Prop := tgood (f_file n) /\ forall l, In l (f_links n) -> elink l.
Definition own (n : fsn) : Prop := below n /\ (f_links n = [] -> encoded (f_bytes n)).
Lemma own_fine n : own n -> fine (GetDagNode n).
Proof. intros ((_ & H) & He). now apply fine_node. Qed.
Lemma tgood_add z f : in_u64 z -> tgood f -> tgood (AddBlockSize z f).
Proof.
  intros Hz [(Hf & Hu) Ht]. rewrite AddBlockSize_eq. split; [|exact Ht].
  destruct f as [t dt fs bs ht fo un]. split; [|exact Hu].
  unfold fields_ok in *. cbn in *. destruct Hf as (F1 & F2 & F3 & F4 & F5 & F6). repeat split; auto; try apply u64_range.
  apply Forall_app. split; [exact F4|]. constructor; [exact Hz|constructor].
Qed.
Lemma tgood_size f : tgood f -> in_u64 (FileSize f).
Proof.
  intros [(Hf & Hu) Ht]. assert (Z0 : in_u64 0) by (unfold in_u64, two64; lia). unfold FileSize, size.
  destruct (_ || _); [exact Z0|]. destruct (_ || _).
  - unfold getFilesize. destruct Hf as (_ & _ & F & _). destruct (d_filesize f); [exact F|exact Z0].
  - destruct (_ =? _); [apply u64_range|exact Z0].
Qed.
Lemma tgood_remove i f f' : tgood f -> RemoveBlockSize i f = Ok f' -> tgood f'.
Proof.
  intros [(Hf & Hu) Ht] E. unfold RemoveBlockSize in E. destruct (_ || _); [discriminate|]. destruct (nth_error _ _) as [s|]; [|discriminate]. injection E as <-.
  split; [|exact Ht]. destruct f as [t dt fs bs ht fo un]. split; [|exact Hu].
  unfold fields_ok in *. cbn in *. destruct Hf as (F1 & F2 & F3 & F4 & F5 & F6). repeat split; auto; try apply u64_range.
  rewrite Forall_forall in *. intros x Hx. apply F4. apply in_app_iff in Hx. destruct Hx as [Hx|Hx].
  - rewrite <- (firstn_skipn (Z.to_nat i) bs). apply in_or_app. now left.
  - rewrite <- (firstn_skipn (Z.to_nat (i + 1)) bs). apply in_or_app. now right.
Qed.
Lemma commit_own n : below n -> exists n', Commit n = Ok n' /\ own n'.
Proof.
  intros ((Hg & Ht) & Hl). unfold Commit. destruct (commit_roundtrip _ Hg Ht) as (b & Hb & Hd). rewrite Hb. eexists. split; [reflexivity|].
  split; [split; [split|]; assumption|]. intros _. cbn [f_bytes]. eexists. split; eassumption.
Qed.

(** Triples over all outcomes. *)
Definition trip {S A} (P : S -> Prop) (m : M S A) (Q : A -> S -> Prop) (E : S -> Prop) : Prop :=
  forall s, P s -> match m s with (Ok a, s') => Q a s' | (_, s') => E s' end.
Lemma trip_bind {S A B} (m : M S A) (k : A -> M S B) P Q R E : trip P m Q E -> (forall a, trip (Q a) (k a) R E) -> trip P (bind m k) R E.
Proof. intros Hm Hk s H. unfold bind. specialize (Hm s H). destruct (m s) as [[a| | |] t]; try exact Hm. exact (Hk a t Hm). Qed.
Lemma trip_if {S A} (c : bool) (m n : M S A) P Q E : trip P m Q E -> trip P n Q E -> trip P (if c then m else n) Q E.
Proof. now destruct c. Qed.
Lemma trip_fuel {S A} (P : S -> Prop) Q : trip (A := A) P (lift Fuel) Q P.
Proof. intros s H. exact H. Qed.
Lemma trip_ret {S A} (a : A) (P E : S -> Prop) : trip P (ret a) (fun _ => P) E.
Proof. intros s H. exact H. Qed.
Lemma trip_weaken {S A} (m : M S A) (P P' E : S -> Prop) (Q Q' : A -> S -> Prop) : trip P m Q E -> (forall s, P' s -> P s) -> (forall a s, Q a s -> Q' a s) -> trip P' m Q' E.
Proof. intros H HP HQ s Hs. specialize (H s (HP s Hs)). destruct (m s) as [[a| | |] s']; auto. Qed.

Definition T {S} (s : S) : Prop := True.
Definition made_ok (c : xnode * Z) : Prop := fine (fst (fst c)) /\ in_u64 (snd c).
Notation makes m := (trip T m (fun c (_ : db) => made_ok c) T).

(** What is kept of the node in the state. *)
Record stable (I : fsn -> Prop) : Prop := {
  st_below : forall n, I n -> below n;
  st_own : forall n, own n -> I n }.
Lemma stable_below : stable below.
Proof. split; [auto|intros n H; apply H]. Qed.
Lemma stable_own : stable own.
Proof. split; [intros n H; apply H|auto]. Qed.
Definition on (I : fsn -> Prop) (s : fsn * db) : Prop := I (fst s).

Lemma NewLeafNode_fine data t d n : leaf_ok t -> NewLeafNode data t d = Ok n -> fine n /\ in_u64 (zlen (obytes data)).
Proof.
  intros Ht En. unfold NewLeafNode in En. destruct (_ <? _) eqn:El; [discriminate|]. pose proof (zlen_nonneg (obytes data)) as Hz.
  split; [|unfold in_u64, BlockSizeLimit, two64 in *; lia]. destruct (db_raw d); [injection En as <-; apply fine_raw|].
  match type of En with context [Commit ?f] => destruct (commit_own f) as (f' & Ef & Hf) end.
  { split; [|intros l []]. split; [|discriminate]. cbn [SetFileData NewFSNodeOverDag f_file]. apply good_leaf; [exact Ht|]. unfold BlockSizeLimit, two64 in *. lia. }
  rewrite Ef in En. cbn [rbind] in En. injection En as <-. now apply own_fine.
Qed.
Lemma trip_leaf t : leaf_ok t -> makes (NewLeafDataNode t).
Proof.
  intros Ht d _. unfold NewLeafDataNode. unfold bind at 1. destruct (Next d) as [[data| | |] d1]; try exact Logic.I.
  unfold bind at 1. destruct (NewLeafNode data t d1) as [n| | |] eqn:En; try exact Logic.I. destruct (NewLeafNode_fine _ _ _ _ Ht En) as (Hn & Hz).
  unfold bind at 1, ProcessFileStore. destruct (db_fs d1), n; cbn [ret]; split; assumption.
Qed.
Lemma new_below p t : leaf_ok t -> below (NewFSNodeOverDag p t).
Proof.
  intros Ht. split; [|intros l []]. split; [|discriminate]. apply good_data_nounrec; [|reflexivity]. destruct Ht as [-> | ->]; repeat split; cbn; try lia; try constructor; discriminate.
Qed.

Section Keep.
  Variable I : fsn -> Prop.
  Hypothesis HI : stable I.
  Notation keeps m := (trip (on I) m (fun _ => on I) (on I)).
  Notation ends m := (trip (on I) m (fun _ => on own) (on I)).

  Lemma trip_on_db {A} (m : M db A) (Q : A -> Prop) : trip T m (fun a _ => Q a) T -> trip (on I) (on_db m) (fun a s => on I s /\ Q a) (on I).
  Proof. intros H s HB. unfold on_db. specialize (H (snd s) Logic.I). destruct (m (snd s)) as [[a| | |] d]; try exact HB. split; [exact HB|exact H]. Qed.
  Lemma trip_done : keeps (on_db Done).
  Proof. intros s HB. unfold on_db. destruct (Done (snd s)) as [[a| | |] d]; exact HB. Qed.
  Lemma add_own n x z : below n -> made_ok (x, z) ->
    I (mkFsn (f_prefix n) (f_bytes n) (f_links n ++ [make_link [] (fst x)]) (AddBlockSize z (f_file n))).
  Proof.
    intros (Hg & Hl) (Hx & Hz). apply (st_own _ HI). split.
    - split; cbn [f_file f_links]; [now apply tgood_add|]. intros l Hin. apply in_app_iff in Hin. destruct Hin as [Hin|[<-|[]]]; [auto|]. now apply elink_make.
    - cbn [f_links]. intros E. destruct (f_links n); discriminate.
  Qed.
  Lemma trip_AddChild_below x z : trip (fun s => on below s /\ made_ok (x, z)) (AddChild x z) (fun _ => on I) (on I).
  Proof.
    intros [n d] (HB & Hx). unfold AddChild. pose proof (add_own n x z HB Hx) as H. destruct (Add x d) as [[a| | |] d']; exact H.
  Qed.
  Lemma trip_AddChild x z : trip (fun s => on I s /\ made_ok (x, z)) (AddChild x z) (fun _ => on I) (on I).
  Proof. eapply trip_weaken; [apply trip_AddChild_below| |auto]. intros s (H & Hx). split; [apply (st_below _ HI), H|exact Hx]. Qed.
  Lemma trip_commit : ends commit.
  Proof. intros [n d] HB. unfold commit. cbn [fst snd]. destruct (commit_own n (st_below _ HI _ HB)) as (n' & -> & H). exact H. Qed.
  Lemma ends_keeps {A} (m : M (fsn * db) A) : ends m -> keeps m.
  Proof. intros H. eapply trip_weaken; [exact H|auto|]. intros a s Hs. apply (st_own _ HI), Hs. Qed.

  Lemma trip_fill mk : makes mk -> forall fuel, keeps (fill_loop mk fuel).
  Proof.
    intros Hm. induction fuel as [|f IH]; intros s HB; cbn [fill_loop]; (destruct (_ <? _); [|exact HB]); revert s HB;
      match goal with |- forall s, _ -> match ?m s with _ => _ end => change (keeps m) end.
    all: eapply trip_bind; [apply trip_done|]; intros dn; apply trip_if; [apply trip_ret|];
      eapply trip_bind; [apply (trip_on_db mk made_ok), Hm|]; intros [x z]; eapply trip_bind; [apply trip_AddChild|]; intros u; first [apply trip_fuel|exact IH].
  Qed.
  Lemma trip_layer : ends FillNodeLayer.
  Proof.
    intros s HB. unfold FillNodeLayer. refine (trip_bind _ _ (on I) (fun _ => on I) (fun _ => on own) (on I) _ _ s HB); [apply trip_fill, trip_leaf; now right|intros u; apply trip_commit].
  Qed.
  Lemma trip_add_children mk : makes mk -> forall k, keeps (add_children mk k).
  Proof.
    intros Hm. induction k as [|k IH]; cbn [add_children]; [apply trip_ret|]. eapply trip_bind; [apply trip_done|]. intros dn. apply trip_if; [apply trip_ret|].
    eapply trip_bind; [apply (trip_on_db mk made_ok), Hm|]. intros [x z]. eapply trip_bind; [apply trip_AddChild|]. intros ?. exact IH.
  Qed.
  Lemma trip_depth fill : (forall z, makes (fill z)) -> forall fuel depth mx, keeps (depth_loop fill fuel depth mx).
  Proof.
    intros Hm. induction fuel as [|f IH]; intros depth mx; cbn [depth_loop]; (apply trip_if; [|apply trip_ret]); (eapply trip_bind; [apply trip_done|]); intros dn;
      (apply trip_if; [apply trip_ret|]); (eapply trip_bind; [apply trip_add_children, Hm|]); intros ?; [apply trip_fuel|apply IH].
  Qed.
End Keep.

Lemma trip_with_new n m : below n -> trip (on below) m (fun _ => on own) (on below) -> makes (with_new n m).
Proof.
  intros Hn Hm d _. unfold with_new. specialize (Hm (n, d) Hn). destruct (m (n, d)) as [[[]| | |] [n' d2]]; try exact Logic.I.
  unfold on in Hm. cbn [fst] in Hm. split; [now apply own_fine|]. apply tgood_size, Hm.
Qed.
Lemma trip_trickle_rec fuel : forall mx, trip (on below) (fillTrickleRec fuel mx) (fun _ => on own) (on below).
Proof.
  induction fuel as [|f IH]; intros mx; cbn [fillTrickleRec]; [apply trip_fuel|]. eapply trip_bind; [apply (ends_keeps _ stable_below), (trip_layer _ stable_below)|]. intros ?.
  eapply trip_bind; [|intros ?; apply (trip_commit _ stable_below)]. apply (trip_depth _ stable_below). intros z d HT. refine (trip_with_new _ _ _ _ d HT); [apply new_below; now left|apply IH].
Qed.
Lemma trip_subtree fuel z : makes (new_subtree fuel z).
Proof. intros d HT. unfold new_subtree. refine (trip_with_new _ _ _ _ d HT); [apply new_below; now left|apply trip_trickle_rec]. Qed.
Lemma trip_node_rec depth : trip (on below) (fillNodeRec depth) (fun _ => on own) (on below).
Proof.
  induction depth as [|d IH]; [intros s HB; exact HB|]. intros s HB. cbn [fillNodeRec].
  refine (trip_bind _ _ (on below) (fun _ => on below) (fun _ => on own) (on below) _ _ s HB); [|intros u; apply (trip_commit _ stable_below)].
  apply (trip_fill _ stable_below). destruct d as [|d']; [apply trip_leaf; now left|].
  intros x HT. refine (trip_with_new _ _ _ _ x HT); [apply new_below; now left|exact IH].
Qed.
Lemma trip_T {S A} (m : M S A) : trip T m (fun _ => T) T.
Proof. intros s _. destruct (m s) as [[?| | |] ?]; exact Logic.I. Qed.
Lemma trip_layout fuel : forall depth root fs, fine (fst root) -> in_u64 fs -> trip T (layout_loop fuel depth root fs) (fun r _ => fine (fst r)) T.
Proof.
  induction fuel as [|f IH]; intros depth root fs Hr Hz; cbn [layout_loop].
  - eapply trip_bind; [apply trip_T|]. intros dn. apply trip_if; [intros s _; exact Hr|apply trip_fuel].
  - eapply trip_bind; [apply trip_T|]. intros dn. apply trip_if; [intros s _; exact Hr|].
    apply trip_bind with (Q := fun c _ => made_ok c).
    + intros d HT. refine (trip_with_new _ _ _ _ d HT); [apply new_below; now left|].
      eapply trip_bind; [eapply trip_weaken; [apply (trip_AddChild _ stable_below)| |intros a0 s0 H; exact H]; intros s HB; split; [exact HB|split; assumption]|].
      intros ?. apply trip_node_rec.
    + intros [r z] s [H1 H2]. exact (IH _ _ _ H1 H2 s Logic.I).
Qed.
Lemma trip_balanced fuel : trip T (Balanced.Layout fuel) (fun r (_ : db) => fine r) T.
Proof.
  unfold Balanced.Layout. eapply trip_bind; [apply trip_T|]. intros dn. apply trip_if.
  - intros d _. unfold bind at 1. destruct (NewLeafNode _ _ _) as [n| | |] eqn:En; try exact Logic.I.
    unfold bind at 1. destruct (Add _ _) as [[[]| | |] d1]; try exact Logic.I. apply fine_seal. eapply NewLeafNode_fine; [now left|exact En].
  - apply trip_bind with (Q := fun c _ => made_ok c); [apply trip_leaf; now left|]. intros [x z].
    apply trip_bind with (Q := fun r _ => fine (fst r)); [intros s [H1 H2]; exact (trip_layout fuel _ _ _ H1 H2 s Logic.I)|].
    intros root s Hc. unfold bind. destruct (Add root s) as [[[]| | |] d1]; try exact Logic.I. apply fine_seal, Hc.
Qed.
Lemma trip_trickle fuel : trip T (Trickle.Layout fuel) (fun r (_ : db) => fine r) T.
Proof.
  unfold Trickle.Layout. eapply trip_bind; [apply trip_subtree|]. intros [x z] s [Hc _]. unfold bind.
  destruct (Add _ s) as [[[]| | |] d1]; try exact Logic.I. apply fine_seal, Hc.
Qed.
Lemma balanced_fine fuel dbp fi spl w root w' : balanced_import fuel dbp fi spl w = (Ok root, w') -> fine root.
Proof.
  intros H. unfold balanced_import, build in H. destruct (New dbp fi spl w) as [d| | |]; try discriminate. pose proof (trip_balanced fuel d Logic.I) as G.
  destruct (Balanced.Layout fuel d) as [r d']. injection H as -> <-. exact G.
Qed.
Lemma trickle_fine fuel dbp fi spl w root w' : trickle_import fuel dbp fi spl w = (Ok root, w') -> fine root.
Proof.
  intros H. unfold trickle_import, build in H. destruct (New dbp fi spl w) as [d| | |]; try discriminate. pose proof (trip_trickle fuel d Logic.I) as G.
  destruct (Trickle.Layout fuel d) as [r d']. injection H as -> <-. exact G.
Qed.

(** ** Append *)

Lemma open_own p b ls n : fine (NProto p b ls) -> NewFSNFromDag p b ls = Ok n -> own n.
Proof.
  intros Hc E. unfold NewFSNFromDag in E. destruct (FSNodeFromBytes b) as [f| | |] eqn:Ef; try discriminate. injection E as <-.
  destruct (unmarshal_good _ _ Ef) as [Hg [t Ht]]. split.
  - split; [split; [exact Hg|]; cbn [f_file]; congruence|]. intros l Hl. exact (fine_links _ _ Hc Hl).
  - cbn [f_links f_bytes]. intros ->. eapply fine_leaf, Hc.
Qed.
Lemma bind_at {S A B} (m : M S A) (k : A -> M S B) s : bind m k s =
  match m s with (Ok a, s') => k a s' | (Err e, s') => (Err e, s') | (Panic, s') => (Panic, s') | (Fuel, s') => (Fuel, s') end.
Proof. reflexivity. Qed.
Section Append.
  Variable I : fsn -> Prop.
  Hypothesis HI : stable I.
  Notation keeps m := (trip (on I) m (fun _ => on I) (on I)).
  Notation ends m := (trip (on I) m (fun _ => on own) (on I)).
  Lemma trip_last_child fuel rec depth rep : (forall z, trip (on below) (rec z) (fun _ => on below) (on below)) -> keeps (appendFillLastChild fuel rec depth rep).
  Proof.
    intros Hr s HI0. pose proof (st_below _ HI _ HI0) as HB. unfold appendFillLastChild. rewrite bind_at. cbn [get_fsn]. rewrite bind_at. cbn [get_db].
    destruct (_ <=? _); [exact HI0|]. cbv zeta. rewrite bind_at. unfold lift at 1.
    destruct (GetChild _ _ _) as [c| | |] eqn:Ec; try exact HI0.
    assert (Hc : below c).
    { unfold GetChild in Ec. destruct (_ <? 0); [discriminate|]. destruct (nth_error _ _) as [l|] eqn:El; [|discriminate].
      pose proof (get_cases (db_w (snd s)) (lto l)) as G. destruct (dserv_get (db_w (snd s)) (lto l)) as [k| | |]; try discriminate. subst k. cbn [rbind] in Ec.
      destruct (lto l) as [|p b ls] eqn:En; [discriminate|]. refine (proj1 (open_own _ _ _ _ _ Ec)). rewrite <- En. apply HB. eapply nth_error_In, El. }
    rewrite bind_at. unfold on_fsn at 1. pose proof (Hr (depth - 1) (c, snd s) Hc) as Hc'.
    destruct (rec (depth - 1) (c, snd s)) as [[[]| | |] [c' d']]; try exact HI0. unfold on in Hc'. cbn [fst] in Hc'.
    rewrite bind_at. unfold lift at 1. destruct (RemoveChild _ _) as [n1| | |] eqn:En; try exact HI0.
    assert (Hn1 : below n1).
    { unfold RemoveChild in En. destruct (RemoveBlockSize _ _) as [f1| | |] eqn:Ef; try discriminate. cbn [rbind] in En. destruct (_ <=? _); [discriminate|]. injection En as <-.
      split; cbn [f_file f_links]; [eapply tgood_remove; [apply HB|exact Ef]|]. intros l Hl. apply HB. apply in_app_iff in Hl. destruct Hl as [Hl|Hl].
      - rewrite <- (firstn_skipn (Z.to_nat (fNumChildren (fst s) - 1)) (f_links (fst s))). apply in_or_app. now left.
      - rewrite <- (firstn_skipn (Z.to_nat (fNumChildren (fst s) - 1 + 1)) (f_links (fst s))). apply in_or_app. now right. }
    rewrite bind_at. cbn [set_fsn]. rewrite bind_at. unfold lift at 1. destruct (commit_own c' Hc') as (c2 & -> & Hc2).
    cbn [fst snd].
    refine (trip_bind _ _ (fun s => on below s /\ made_ok ((GetDagNode c2, None), fFileSize c')) (fun _ => on I) (fun _ => on I) (on I) (trip_AddChild_below I HI _ _) _ (n1, d') _).
    - intros u. apply trip_if; [apply trip_ret|]. apply trip_add_children; [exact HI|apply trip_subtree].
    - split; [exact Hn1|]. split; [now apply own_fine|]. apply tgood_size, Hc'.
  Qed.
  Lemma trip_get_db : keeps get_db.
  Proof. intros s HB. exact HB. Qed.
  Lemma trip_get_fsn : keeps get_fsn.
  Proof. intros s HB. exact HB. Qed.
End Append.
Lemma trip_append_rec fuel rfuel : forall mx, trip (on below) (appendRec fuel rfuel mx) (fun _ => on below) (on below).
Proof.
  pose proof stable_below as HS.
  induction rfuel as [|rf IH]; intros mx; cbn [appendRec]; (apply trip_if; [apply trip_ret|]);
    (eapply trip_bind; [apply trip_done|]); intros [|]; try apply trip_ret; [apply trip_fuel|].
  eapply trip_bind; [apply trip_get_fsn|]. intros n. eapply trip_bind; [apply trip_get_db|]. intros b.
  destruct (trickleDepthInfo n (db_maxlinks b)) as [d0 rep].
  eapply trip_bind with (Q := fun _ => on below); [apply trip_if; [eapply trip_bind; [apply (ends_keeps _ HS), (trip_layer _ HS)|intros []; apply trip_ret]|apply trip_ret]|].
  intros depth. apply trip_if; [apply trip_ret|]. eapply trip_bind; [apply (trip_last_child _ HS), IH|]. intros [].
  eapply trip_bind; [apply trip_done|]. intros d2. apply trip_if; [|apply trip_ret].
  apply (trip_depth _ HS), trip_subtree.
Qed.
Lemma trip_append_body fuel rfuel : trip (on own) (append_body fuel rfuel) (fun _ => on own) (on own).
Proof.
  pose proof stable_own as HS.
  unfold append_body. eapply trip_bind; [apply trip_get_fsn|]. intros n. eapply trip_bind; [apply trip_get_db|]. intros b.
  destruct (trickleDepthInfo n (db_maxlinks b)) as [d0 rep]. eapply trip_bind with (Q := fun c => on own).
  - apply trip_if; [|apply trip_ret]. eapply trip_bind; [apply (trip_layer _ HS)|]. intros [].
    eapply trip_bind; [apply trip_done|]. intros d2. apply trip_ret.
  - intros [depth|]; [|apply trip_ret].
    eapply trip_bind; [apply (trip_last_child _ HS); intros z; apply trip_append_rec|]. intros [].
    eapply trip_bind; [apply trip_done|]. intros d2.
    eapply trip_bind; [apply (trip_depth _ HS), trip_subtree|]. intros []. apply (trip_commit _ HS).
Qed.
Lemma append_fine fuel rfuel dbp fi spl base w : fine base ->
  let '(r, base', _) := trickle_append fuel rfuel dbp fi spl base w in fine base' /\ (forall root, r = Ok root -> fine root).
Proof.
  intros Hb. unfold trickle_append. destruct (New dbp fi spl w) as [d| | |]; try (split; [exact Hb|discriminate]). unfold Append.
  destruct base as [p b|p b ls]; [split; [exact Hb|discriminate]|]. destruct (NewFSNFromDag p b ls) as [n| | |] eqn:En; try (split; [exact Hb|discriminate]).
  pose proof (trip_append_body fuel rfuel (n, d) (open_own _ _ _ _ Hb En)) as H.
  destruct (append_body fuel rfuel (n, d)) as [[[]| | |] [n' d']]; pose proof (own_fine _ H) as F; (split; [exact F|]); try discriminate. intros root [= <-]. exact F.
Qed.

(** ** Overwriting *)

(** A node in whose place another of the same cumulative size stands. *)
Definition same_size (n n' : node) : Prop := cumulative n' = cumulative n /\ node_prefix n' = node_prefix n.
Lemma set_link_fine i k ls l : nth_error ls i = Some l -> (forall x, In x ls -> elink x) -> fine k -> same_size (lto l) k ->
  (forall x, In x (set_link i k ls) -> elink x) /\ csum (set_link i k ls) = csum ls /\ lsum (set_link i k ls) = lsum ls /\ (set_link i k ls = [] -> ls = []).
Proof.
  revert i. induction ls as [|y r IH]; intros [|i] Hn Hl Hk (Hc & Hp); try discriminate; cbn [nth_error set_link] in *.
  - injection Hn as ->. repeat split; try discriminate.
    + destruct H as [<-|H]; cbn [lsize lto]; [|now apply Hl; right]. rewrite Hc. apply (Hl l). now left.
    + destruct H as [<-|H]; cbn [lto]; [apply Hk|apply (Hl x); now right].
    + destruct H as [<-|H]; cbn [lto]; [apply Hk|apply (Hl x); now right].
    + unfold csum, sumZ. cbn [map fold_right lto]. lia.
    + unfold lsum, sumZ. cbn [map fold_right]. f_equal. unfold link_len. cbn [lto lname lsize]. now rewrite Hp.
  - destruct (IH i Hn (fun x Hx => Hl x (or_intror Hx)) Hk (conj Hc Hp)) as (I1 & I2 & I3 & _). repeat split; try discriminate.
    + destruct H as [<-|H]; [apply (Hl y); now left|now apply I1].
    + destruct H as [<-|H]; [apply (Hl y); now left|now apply I1].
    + destruct H as [<-|H]; [apply (Hl y); now left|now apply I1].
    + unfold csum, sumZ in *. cbn [map fold_right] in *. lia.
    + unfold lsum, sumZ in *. cbn [map fold_right] in *. lia.
Qed.
Lemma add_leaf_ok n buf w : let '(r, _, _) := add_leaf n buf w in forall k, r = Ok k -> k = seal n.
Proof. unfold add_leaf. destruct (dserv_add n None w) as [[[]| | |] w']; intros k [= <-]; reflexivity. Qed.
Lemma buf_read_len dst buf : zlen (fst (buf_read dst buf)) = zlen dst.
Proof. unfold buf_read, zlen. cbn [fst]. rewrite app_length, firstn_length, skipn_length. lia. Qed.
Lemma cut_len {A} off (d : list A) : zlen (ztake off d) + zlen (zdrop off d) = zlen d.
Proof. rewrite <- zlen_app. unfold ztake, zdrop. now rewrite firstn_skipn. Qed.
Lemma modify_leaf_fine n off buf w : node_links n = [] -> fine n ->
  let '(r, _, _) := modify_leaf n off buf w in forall k, r = Ok k -> fine k /\ same_size n k.
Proof.
  intros Hn Hf. unfold modify_leaf. destruct n as [p d|p b ls].
  - destruct (_ <? _); [discriminate|]. destruct (buf_read _ _) as [new buf'] eqn:Eb.
    assert (El : zlen (ztake off d ++ new) = zlen d).
    { pose proof (buf_read_len (zdrop off d) buf) as L. rewrite Eb in L. cbn [fst] in L. rewrite zlen_app, L. apply cut_len. }
    pose proof (add_leaf_ok (NRaw p (ztake off d ++ new)) buf' w) as H. destruct (add_leaf _ _ _) as [[r ?] ?]. intros k E. rewrite (H k E). cbn [seal].
    split; [apply fine_raw|]. split; [|reflexivity]. cbn [cumulative block_len]. lia.
  - cbn [node_links] in Hn. subst ls. destruct (fine_leaf _ _ Hf) as (f & Ef & Eg). rewrite Ef. destruct (_ <? _); [discriminate|].
    destruct (buf_read _ _) as [new buf'] eqn:Eb.
    assert (El : zlen (ztake off (getData f) ++ new) = zlen (getData f)).
    { pose proof (buf_read_len (zdrop off (getData f)) buf) as L. rewrite Eb in L. cbn [fst] in L. rewrite zlen_app, L. apply cut_len. }
    destruct (leaf_encode b f (option_map (fun _ => ztake off (getData f) ++ new) (d_data f)) Ef) as (b' & E1 & E2 & E3).
    { unfold getData in *. destruct (d_data f); cbn [option_map obytes] in *; [exact El|reflexivity]. }
    { destruct (d_data f); cbn; split; intros X; try discriminate X; reflexivity. }
    rewrite E1. pose proof (add_leaf_ok (NProto p b' []) buf' w) as H. destruct (add_leaf _ _ _) as [[r ?] ?]. intros k E. rewrite (H k E). cbn [seal lsort].
    split; [apply fine_node; [intros _; eexists; split; eassumption|intros l []]|]. split; [|reflexivity]. rewrite !cum_node. now rewrite (E3 Eg).
Qed.
Definition same_links (ls ls' : list link) : Prop :=
  (forall l, In l ls' -> elink l) /\ csum ls' = csum ls /\ lsum ls' = lsum ls /\ (ls' = [] -> ls = []).
Lemma modify_links_fine rec :
  (forall c o b w, fine c -> let '(r, _, _) := rec c o b w in forall k, r = Ok k -> fine k /\ same_size c k) ->
  forall sizes i cur off ls buf w, (forall l, In l ls -> elink l) -> let '(_, ls', _, _) := modify_links rec sizes i cur off ls buf w in same_links ls ls'.
Proof.
  intros Hr. induction sizes as [|bs r IH]; intros i cur off ls buf w Hl; cbn [modify_links]; assert (H0 : same_links ls ls) by (repeat split; auto; apply Hl; auto); try exact H0.
  destruct (off <? _); [|now apply IH]. destruct (nth_error ls i) as [l|] eqn:En; [|exact H0].
  pose proof (get_cases w (lto l)) as G. destruct (dserv_get w (lto l)) as [child| | |]; try exact H0. subst child.
  specialize (Hr (lto l) (u64 (off - cur)) buf w (proj2 (Hl l (nth_error_In _ _ En)))). destruct (rec (lto l) _ buf w) as [[x buf'] w'].
  destruct x as [k| | |]; try exact H0. destruct (Hr k eq_refl) as (Hk & Hs). destruct (set_link_fine _ _ _ _ En Hl Hk Hs) as (S1 & S2 & S3 & S4).
  assert (HS : same_links ls (lsort (set_link i k ls))).
  { split; [intros y Hy; apply S1; now apply In_lsort|]. rewrite csum_sort, lsum_sort. split; [exact S2|]. split; [exact S3|]. intros E. now apply S4, lsort_nil. }
  destruct (_ =? 0); [exact HS|].
  specialize (IH (S i) (u64 (cur + bs)) (u64 (cur + bs)) _ buf' w' (proj1 HS)). destruct (modify_links _ _ _ _ _ _ _ _) as [[[? ls2] ?] w2].
  destruct IH as (J1 & J2 & J3 & J4). destruct HS as (_ & K2 & K3 & K4). split; [exact J1|]. split; [congruence|]. split; [congruence|auto].
Qed.
Lemma modifyDag_fine fuel : forall n off buf w, fine n ->
  let '(r, _, _, n') := modifyDag fuel n off buf w in fine n' /\ (forall k, r = Ok k -> fine k /\ same_size n k).
Proof.
  induction fuel as [|f IH]; intros n off buf w Hf; cbn [modifyDag]; destruct (node_links n) as [|l0 r0] eqn:En;
    try (pose proof (modify_leaf_fine n off buf w En Hf) as H; destruct (modify_leaf n off buf w) as [[? ?] ?]; exact (conj Hf H));
    destruct n as [p d|p b ls]; cbn [node_links] in En; try discriminate; subst ls;
    destruct (FSNodeFromBytes b) as [fs| | |]; try (split; [exact Hf|discriminate]).
  assert (Hr : forall c o bf ww, fine c -> let '(r, _, _) := fst (modifyDag f c o bf ww) in forall k, r = Ok k -> fine k /\ same_size c k).
  { intros c o bf ww Hc. specialize (IH c o bf ww Hc). destruct (modifyDag f c o bf ww) as [[[? ?] ?] ?]. cbn [fst]. tauto. }
  pose proof (modify_links_fine (fun c o bf ww => fst (modifyDag f c o bf ww)) Hr (d_blocksizes fs) 0 0 off (l0 :: r0) buf w (fun l => fine_links _ l Hf)) as H.
  destruct (modify_links _ _ _ _ _ _ _ _) as [[[x ls'] buf'] w']. destruct H as (H1 & H2 & H3 & H4).
  assert (F : fine (NProto p b ls')) by (apply fine_node; [intros E; discriminate (H4 E)|exact H1]).
  destruct x as [[]| | |]; try (split; [exact F|discriminate]). pose proof (fine_seal _ F) as F'.
  destruct (dserv_add _ _ w') as [[[]| | |] w2]; (split; [exact F'|]); try discriminate. intros k [= <-]. split; [exact F'|]. split; [|reflexivity].
  rewrite !cum_node, ?csum_sort, ?lsum_sort. lia.
Qed.

(** ** Truncating *)

Lemma RemoveAll_tgood f : tgood f -> tgood (RemoveAllBlockSizes f).
Proof.
  intros [(Hf & Hu) Ht]. split; [|exact Ht]. destruct f as [t dt fs bs ht fo un]. split; [|exact Hu].
  unfold fields_ok in *. cbn in *. destruct Hf as (F1 & F2 & F3 & F4 & F5 & F6). repeat split; auto; try apply u64_range; constructor.
Qed.
Lemma zlen_firstn_le {A} k (l : list A) : zlen (firstn k l) <= zlen l.
Proof. unfold zlen. rewrite firstn_length. lia. Qed.
Lemma WrapData_encoded o b : zlen (obytes o) < two64 -> WrapData o = Ok b -> encoded b.
Proof.
  intros Hz Ew. destruct (WrapData_decode o Hz) as (b' & E' & Hd). rewrite Ew in E'. apply Ok_inj in E'. subst b'. eexists. split; [exact Hd|].
  unfold WrapData in Ew. rewrite u64_small in Ew by (pose proof (zlen_nonneg (obytes o)); unfold in_u64; lia).
  unfold must_marshal in Ew. unfold GetBytes. cbn [set_filesize set_type set_data empty_data d_type d_data d_filesize d_blocksizes d_hashtype d_fanout d_unrec] in Ew.
  destruct (marshal_data _); try discriminate. exact Ew.
Qed.
Lemma trunc_links_fine rec :
  (forall c o w, fine c -> let '(r, _) := rec c o w in forall k, r = Ok k -> fine k) ->
  forall ls i cur size f w, (forall l, In l ls -> elink l) ->
    let '(r, _) := trunc_links rec ls i cur size f w in forall e k f', r = Ok (Some (e, k), f') -> fine k.
Proof.
  intros Hr. induction ls as [|l r IH]; intros i cur size f w Hl; cbn [trunc_links]; [discriminate|].
  pose proof (get_cases w (lto l)) as G. destruct (dserv_get w (lto l)) as [child| | |]; try discriminate. subst child.
  destruct (fileSize (lto l)) as [cs| | |]; try discriminate. destruct (_ <? _); [|apply IH; intros x Hx; apply Hl; now right].
  specialize (Hr (lto l) (u64 (size - cur)) w (proj2 (Hl l (or_introl eq_refl)))). destruct (rec (lto l) _ w) as [[nc| | |] w']; try discriminate.
  intros e k f' [= _ <- _]. auto.
Qed.
Lemma dagTruncate_fine fuel : forall n size w, fine n -> let '(r, _) := dagTruncate fuel n size w in forall k, r = Ok k -> fine k.
Proof.
  assert (L : forall p b size w, fine (NProto p b []) -> let '(r, _) := dagTruncate 0 (NProto p b []) size w in forall k, r = Ok k -> fine k).
  { intros p b size w Hf. cbn [dagTruncate node_links]. destruct (fine_leaf _ _ Hf) as (f & Ef & _). rewrite Ef. destruct (_ <? _); [discriminate|].
    destruct (WrapData _) as [b'| | |] eqn:Ew; try discriminate. intros k [= <-]. apply fine_node; [|intros l []]. intros _.
    eapply WrapData_encoded; [|exact Ew]. destruct (unmarshal_good _ _ Ef) as [((_ & Hz & _) & _) _].
    destruct (d_data f) as [v|]; cbn [option_map obytes]; [|reflexivity]. pose proof (zlen_firstn_le (Z.to_nat size) v) as L. unfold ztake. lia. }
  induction fuel as [|fu IH]; intros n size w Hf; cbn [dagTruncate]; destruct n as [p d|p b [|l0 ls]]; cbn [node_links] in *.
  1,4: destruct (_ <? _); try discriminate; intros k [= <-]; apply fine_raw.
  1,3: exact (L p b size w Hf).
  - destruct (FSNodeFromBytes b); discriminate.
  - destruct (FSNodeFromBytes b) as [f| | |]; try discriminate.
    pose proof (trunc_links_fine (dagTruncate fu) IH (l0 :: ls) 0 0 size (RemoveAllBlockSizes f) w (fun l => fine_links _ l Hf)) as H.
    destruct (trunc_links _ _ _ _ _ _ _) as [[[[[e modified]|] f']| | |] w']; try discriminate. specialize (H _ _ _ eq_refl).
    destruct (dserv_add modified None w') as [[[]| | |] w2]; try discriminate.
    destruct (GetBytes f') as [d| | |]; try discriminate. intros k [= <-]. apply (fine_seal (NProto p d (firstn e (l0 :: ls) ++ [make_link [] modified]))), fine_node.
    + intros E. destruct (firstn e (l0 :: ls)); discriminate.
    + intros l Hl. apply in_app_iff in Hl. destruct Hl as [Hl|[<-|[]]]; [|now apply elink_make].
      apply (fine_links _ l Hf). rewrite <- (firstn_skipn e (l0 :: ls)). apply in_or_app. now left.
Qed.

(** ** The modifier *)

Definition fcur (m : modifier) : Prop := match m_node m with Some n => fine n | None => True end.
Definition J (s : mst) : Prop := fcur (fst s).
Notation safe_j m := (trip J m (fun _ => J) J).
Lemma safe_same {A} (m : M mst A) : (forall s, m_node (fst (snd (m s))) = m_node (fst s)) -> safe_j m.
Proof.
  intros Hn s H. assert (H' : J (snd (m s))) by (unfold J, fcur; now rewrite Hn). destruct (m s) as [[a| | |] s']; exact H'.
Qed.
Lemma safe_lift {A} (r : res A) : safe_j (lift r).
Proof. intros s H. unfold lift. destruct r; exact H. Qed.
Lemma safe_throw {A} e : safe_j (throw (A := A) e).
Proof. intros s H. exact H. Qed.
Lemma safe_ret {A} (a : A) : safe_j (ret a).
Proof. intros s H. exact H. Qed.
Lemma safe_bind {A B} (m : M mst A) (k : A -> M mst B) : safe_j m -> (forall a, safe_j (k a)) -> safe_j (bind m k).
Proof. intros Hm Hk. eapply trip_bind; [exact Hm|exact Hk]. Qed.
Lemma safe_get_mod : safe_j get_mod.
Proof. now apply safe_same. Qed.
Lemma safe_cur_node : safe_j cur_node.
Proof. apply safe_same; intros s; unfold cur_node; now destruct (m_node (fst s)) eqn:E. Qed.
Lemma safe_mod_add n : safe_j (mod_add n).
Proof. apply safe_same. intros s. unfold mod_add. now destruct (dserv_add n None (snd s)) as [[]]. Qed.
Lemma safe_append_cur chunks : trip J (append_cur chunks) (fun nn s => fine nn /\ J s) J.
Proof.
  intros [m w] HJ. unfold append_cur. cbn [fst snd]. pose proof HJ as HJ'. unfold J, fcur in HJ. cbn [fst snd] in HJ.
  destruct (m_node m) as [n|] eqn:En; [|exact HJ']. unfold appendData.
  match goal with |- context [trickle_append ?a ?b ?c ?d ?e ?f ?g] => pose proof (append_fine a b c d e f g HJ) as H;
    destruct (trickle_append a b c d e f g) as [[r n'] w'] end. destruct H as (F & H).
  destruct r as [root| | |]; try exact F. split; [now apply H|exact F].
Qed.
Lemma safe_expand size : safe_j (expandSparse size).
Proof. unfold expandSparse. eapply trip_bind; [apply safe_append_cur|]. intros nn s (_ & H). exact (safe_mod_add nn s H). Qed.
Lemma safe_truncate_cur size : trip J (truncate_cur size) (fun nn s => fine nn /\ J s) J.
Proof.
  intros [m w] HJ. pose proof HJ as HJ'. unfold truncate_cur, J, fcur in *. cbn [fst snd] in *. destruct (m_node m) as [n|] eqn:En; [|cbn [fst]; now rewrite En].
  pose proof (dagTruncate_fine (weight n) n size w HJ) as H. destruct (dagTruncate _ _ _ _) as [[nn| | |] w']; cbn [fst]; rewrite ?En; try exact HJ.
  specialize (H nn eq_refl). split; [exact H|]. destruct n; cbn [m_change_node m_set_node m_node]; [now rewrite En|exact H].
Qed.
Lemma safe_modify_cur : trip J modify_cur (fun k s => fine k /\ J s) J.
Proof.
  intros [m w] HJ. pose proof HJ as HJ'. unfold modify_cur, J, fcur in *. cbn [fst snd] in *.
  destruct (m_node m) as [n|] eqn:En, (m_buf m) as [buf|] eqn:Eb; try (cbn [fst]; rewrite En; exact HJ).
  pose proof (modifyDag_fine (weight n) n (m_start m) buf w HJ) as H.
  destruct (modifyDag _ _ _ _ _) as [[[r buf'] w'] n']. destruct H as (F & H). cbn [fst snd m_set_buf m_set_node m_node].
  destruct r as [k| | |]; try exact F. split; [apply (H k eq_refl)|exact F].
Qed.
Lemma safe_get_cur k : trip (fun s => fine k /\ J s) (get_cur k) (fun _ => J) J.
Proof.
  intros [m w] (Hk & HJ). unfold get_cur. cbn [fst snd]. pose proof (get_cases w k) as G. destruct (dserv_get w k) as [n| | |]; try exact HJ; [|exact Logic.I]. subst n. exact Hk.
Qed.
Create HintDb finedb.
#[export] Hint Resolve safe_ret safe_lift safe_throw safe_get_mod safe_cur_node safe_mod_add safe_expand : finedb.
Ltac fine_seq :=
  repeat (intros; first [ solve [auto with finedb nocore] | apply safe_bind
    | match goal with |- trip _ (match ?x with _ => _ end) _ _ => destruct x end
    | apply safe_same; intros; cbn; repeat (match goal with |- context [match ?x with _ => _ end] => destruct x end; cbn; try reflexivity); reflexivity ]).
Section Ops.
  Variable split : bytes -> list bytes.
  Variable wbsize : Z.
  Lemma safe_overwrite (k : M mst unit) : safe_j k -> safe_j (bind modify_cur (fun c => bind (get_cur c) (fun _ => k))).
  Proof. intros Hk. eapply trip_bind; [apply safe_modify_cur|]. intros c. eapply trip_bind; [apply safe_get_cur|]. intros u. exact Hk. Qed.
  Lemma safe_append_rest buf : safe_j (bind (append_buf split buf) (fun nn => mod_add nn)).
  Proof.
    apply safe_bind; [|intros nn; apply safe_mod_add]. intros s HJ. pose proof (safe_append_cur (split buf) s HJ) as H. unfold append_buf.
    destruct (append_cur (split buf) s) as [[n|e| |] [m w]]; try exact H; [|exact Logic.I]. exact (proj1 H).
  Qed.
  Hint Resolve safe_append_rest : finedb.
  Lemma safe_Sync : safe_j (Sync split).
  Proof.
    unfold Sync. apply safe_bind; [apply safe_get_mod|]. intros m0. destruct (m_buf m0) as [buf0|]; [|apply safe_ret].
    apply safe_bind; [fine_seq|]. intros []. apply safe_bind; [apply safe_cur_node|]. intros n0. apply safe_bind; [apply safe_lift|]. intros fs.
    apply safe_bind; [fine_seq|]. intros []. apply safe_overwrite. fine_seq.
  Qed.
  Hint Resolve safe_Sync : finedb.
  Lemma safe_Size : safe_j mSize.
  Proof. unfold mSize. fine_seq. Qed.
  Hint Resolve safe_Size : finedb.
  Lemma safe_Write b : safe_j (mWrite split wbsize b).
  Proof. unfold mWrite. fine_seq. Qed.
  Hint Resolve safe_Write : finedb.
  Lemma safe_WriteAt b off : safe_j (WriteAt split wbsize b off).
  Proof. unfold WriteAt. fine_seq. Qed.
  Lemma safe_readPrep : safe_j (readPrep split).
  Proof. unfold readPrep. fine_seq. apply safe_same; intros s; now destruct (m_node (fst s)) eqn:E. Qed.
  Hint Resolve safe_readPrep : finedb.
  Lemma safe_Read k : safe_j (mRead split k).
  Proof. unfold mRead. fine_seq. Qed.
  Lemma safe_read_seek off wh : safe_j (read_seek off wh).
  Proof.
    apply safe_same; intros s; unfold read_seek; destruct (m_read (fst s)) as [r'|]; try reflexivity;
    destruct (Seek (snd s) off wh r') as [[i e] r2]; reflexivity.
  Qed.
  Hint Resolve safe_read_seek : finedb.
  Lemma safe_Seek off wh : safe_j (mSeek split off wh).
  Proof. unfold mSeek. fine_seq. Qed.
  Lemma safe_cut size : safe_j (bind (truncate_cur size) (fun nn => bind (mod_add nn) (fun _ => upd_mod (m_set_node (Some nn))))).
  Proof.
    eapply trip_bind; [apply safe_truncate_cur|]. intros nn.
    eapply trip_bind with (Q := fun _ s => fine nn /\ J s).
    - intros s (Hl & HJ). pose proof (safe_mod_add nn s HJ) as H. destruct (mod_add nn s) as [[a| | |] s']; try exact H. split; [exact Hl|exact H].
    - intros [] s (Hl & _). exact Hl.
  Qed.
  Hint Resolve safe_cut : finedb.
  Lemma safe_Truncate size : safe_j (mTruncate split size).
  Proof. unfold mTruncate. fine_seq. Qed.
  Lemma safe_GetNode : trip J (mGetNode split) (fun n s => fine n /\ J s) J.
  Proof.
    unfold mGetNode. eapply trip_bind; [apply safe_Sync|intros u]. intros s HJ. cbn. unfold J, fcur in *. destruct (m_node (fst s)) as [n|] eqn:E; cbn; rewrite ?E; auto.
  Qed.
  Lemma safe_after op s : J s -> J (mod_after split wbsize op s).
  Proof.
    intros HJ.
    assert (K : forall A (m : M mst A), safe_j m -> J (snd (m s))) by (intros A m H; specialize (H s HJ); destruct (m s) as [[?| | |] ?]; exact H).
    destruct op; cbn [mod_after]; apply K;
      first [apply safe_Write|apply safe_WriteAt|apply safe_Seek|apply safe_Truncate|apply safe_Read|apply safe_Size|apply safe_Sync|idtac].
    eapply trip_weaken; [apply safe_GetNode|auto|]. intros a s0 H. apply H.
  Qed.
  Lemma safe_history ops : forall s, J s -> J (mod_history split wbsize ops s).
  Proof. unfold mod_history. induction ops as [|op ops IH]; intros s HJ; cbn [fold_left]; [exact HJ|]. apply IH, safe_after, HJ. Qed.
End Ops.
Lemma history_fine split wbsize n w ops k s' : tsizes_exact n -> canonical_leaves n ->
  mGetNode split (mod_history split wbsize ops (NewDagModifier n, w)) = (Ok k, s') -> tsizes_exact k /\ canonical_leaves k.
Proof.
  intros H1 H2 E. pose proof (safe_history split wbsize ops (NewDagModifier n, w) (conj H1 H2)) as HJ.
  pose proof (safe_GetNode split _ HJ) as H. rewrite E in H. apply H.
Qed.
