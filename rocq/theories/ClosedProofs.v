(** The store stays closed: a block is added only when its children are there. *)
From Coq Require Import Permutation.
From Verif Require Import Base Pb FSNode Dag Builder Balanced Trickle Importer Reader Modifier SpecFile SpecStore SpecAppend SpecModifier
  DagProofs DirBasic BuilderProofs ModifierProofs GrowProofs.

(** From [w] to [w'] blocks were added, each with its children already there. *)
Definition cgrow (w w' : world) : Prop :=
  wgrow w w' /\ exists a, w_added w' = w_added w ++ a /\ children_first (fun m => stored w m = true) a.

Lemma cgrow_refl w : cgrow w w.
Proof. split; [apply wgrow_refl|]. exists []. split; [now rewrite app_nil_r|apply cf_nil]. Qed.
Lemma cgrow_trans a b c : cgrow a b -> cgrow b c -> cgrow a c.
Proof.
  intros (G1 & x & Ex & Hx) (G2 & y & Ey & Hy). split; [eapply wgrow_trans; eassumption|]. exists (x ++ y).
  split; [now rewrite Ey, Ex, app_assoc|]. apply cf_app; [exact Hx|]. eapply cf_mono; [|exact Hy]. cbn. intros m Hm.
  apply stored_iff in Hm. destruct G1 as (_ & Hh & _). rewrite Hh, Ex, map_app, in_app_iff in Hm. rewrite stored_iff. tauto.
Qed.
Lemma closed_grow w a : closed w -> children_first (fun m => stored w m = true) a -> closed (with_blocks w a).
Proof.
  intros Hc Ha n Hn l Hl. apply stored_iff in Hn. apply stored_iff. cbn [with_blocks w_has w_added] in *.
  rewrite map_app, in_app_iff in *. assert (G : stored w (lto l) = true \/ In (lto l) (map fst a)).
  - destruct Hn as [Hn|[Hn|Hn]].
    + left. eapply Hc; [|exact Hl]. apply stored_iff. now left.
    + left. eapply Hc; [|exact Hl]. apply stored_iff. now right.
    + apply in_map_iff in Hn. destruct Hn as (x & <- & Hx). apply in_split in Hx. destruct Hx as (a1 & a2 & ->).
      destruct (Ha _ _ _ eq_refl l Hl) as [H|H]; [now left|right]. rewrite map_app, in_app_iff. now left.
  - destruct G as [G|G]; [apply stored_iff in G|]; tauto.
Qed.
Lemma cf_prefix B a b : children_first B (a ++ b) -> children_first B a.
Proof. intros H a1 x a2 E. apply (H a1 x (a2 ++ b)). now rewrite E, <- app_assoc. Qed.
Lemma cgrow_throughout w w' : closed w -> cgrow w w' -> closed_throughout w w'.
Proof.
  intros Hc ((_ & Hh & _) & a & Ea & Ha). split; [exact Hh|]. exists a. split; [exact Ea|]. intros a1 a2 ->.
  apply closed_grow; [exact Hc|]. now apply cf_prefix in Ha.
Qed.
Lemma cgrow_closed w w' : closed w -> cgrow w w' -> closed w'.
Proof.
  intros Hc (G & a & Ea & Ha). pose proof (closed_grow w a Hc Ha) as H. intros n Hn l Hl.
  assert (E : forall m, stored (with_blocks w a) m = stored w' m).
  { intros m. unfold stored. cbn. destruct G as (_ & Hh & _). now rewrite Ea, Hh. }
  rewrite <- E in *. eapply H; eassumption.
Qed.
Lemma cgrow_stored w w' m : cgrow w w' -> stored w m = true -> stored w' m = true.
Proof. intros (G & _). now apply wgrow_stored. Qed.

Lemma in_firstn {A} k (l : list A) x : In x (firstn k l) -> In x l.
Proof. intros H. rewrite <- (firstn_skipn k l). apply in_app_iff. now left. Qed.
Lemma in_skipn {A} k (l : list A) x : In x (skipn k l) -> In x l.
Proof. intros H. rewrite <- (firstn_skipn k l). apply in_app_iff. now right. Qed.

(** Every target of the links is in the store. *)
Definition linked (w : world) (ls : list link) : Prop := forall l, In l ls -> stored w (lto l) = true.
Lemma linked_grow w w' ls : cgrow w w' -> linked w ls -> linked w' ls.
Proof. intros G H l Hl. eapply cgrow_stored; [exact G|auto]. Qed.
Lemma linked_nil w : linked w [].
Proof. intros l []. Qed.
Lemma linked_app w a b : linked w a -> linked w b -> linked w (a ++ b).
Proof. intros Ha Hb l Hl. apply in_app_iff in Hl. destruct Hl; auto. Qed.
Lemma linked_sort w ls : linked w ls <-> linked w (lsort ls).
Proof.
  split; intros H l Hl; apply H; [eapply Permutation_in; [apply lsort_perm|exact Hl]|].
  eapply Permutation_in; [apply Permutation_sym, lsort_perm|exact Hl].
Qed.
Lemma linked_seal w n : linked w (node_links n) -> linked w (node_links (seal n)).
Proof. destruct n as [p d|p b ls]; cbn; [auto|]. apply linked_sort. Qed.
Lemma linked_get w m n : closed w -> dserv_get w m = Ok n -> linked w (node_links n).
Proof. unfold dserv_get. destruct (stored w m) eqn:E; [|discriminate]. cbn. destruct (w_getok w m); [|discriminate]. intros Hc [= <-] l Hl. exact (Hc m E l Hl). Qed.
Lemma linked_incl w a b : (forall l, In l b -> In l a) -> linked w a -> linked w b.
Proof. intros H Ha l Hl. auto. Qed.

Lemma add_cgrow n o w : linked w (node_links n) -> cgrow w (snd (dserv_add n o w)).
Proof.
  intros H. split; [apply add_grow|]. unfold dserv_add. destruct (w_addok w (w_calls w)); cbn.
  - exists [(seal n, o)]. split; [reflexivity|]. intros a1 x a2 E l Hl. left. destruct a1 as [|y a1]; [|destruct a1; discriminate].
    injection E as <- <-. cbn in Hl. now apply linked_seal in H; apply H.
  - exists []. split; [now rewrite app_nil_r|apply cf_nil].
Qed.
Lemma add_stored n o w : fst (dserv_add n o w) = Ok tt -> stored (snd (dserv_add n o w)) (seal n) = true.
Proof.
  unfold dserv_add. destruct (w_addok w (w_calls w)); [|discriminate]. intros _. cbn. apply stored_added. cbn. rewrite map_app, in_app_iff. right. now left.
Qed.
Lemma add_ok n o w : can_add w -> fst (dserv_add n o w) = Ok tt.
Proof. intros H. unfold dserv_add. now rewrite H. Qed.
Lemma cgrow_can_add w w' : cgrow w w' -> can_add w' -> can_add w.
Proof. intros ((_ & _ & Ha & _) & _) H. unfold can_add in *. now rewrite <- Ha. Qed.

(** ** Triples *)

Section Safe.
  Context {S : Type} (pw : S -> world).
  (** From a closed store and a state with [P], [m] only adds blocks whose children are
      there; [Q] holds after success and [E], if no Add fails, otherwise. *)
  Definition safe {A} (P : S -> Prop) (m : M S A) (Q : A -> S -> Prop) (E : S -> Prop) : Prop :=
    forall s, closed (pw s) -> P s -> cgrow (pw s) (pw (snd (m s))) /\
      match fst (m s) with Ok a => Q a (snd (m s)) | _ => can_add (pw (snd (m s))) -> E (snd (m s)) end.

  Lemma safe_ret {A} (a : A) P E : safe P (ret a) (fun b s => b = a /\ P s) E.
  Proof. intros s _ H. split; [apply cgrow_refl|]. split; [reflexivity|exact H]. Qed.
  Lemma safe_lift {A} (r : res A) (P E : S -> Prop) : (forall s, P s -> E s) -> safe P (lift r) (fun a s => r = Ok a /\ P s) E.
  Proof. intros HE s _ H. split; [apply cgrow_refl|]. cbn. destruct r; auto. Qed.
  Lemma safe_fuel {A} (P E : S -> Prop) Q : (forall s, P s -> E s) -> safe P (lift (A := A) Fuel) Q E.
  Proof. intros HE s _ H. split; [apply cgrow_refl|]. cbn. auto. Qed.
  Lemma safe_throw {A} e (P E : S -> Prop) Q : (forall s, P s -> E s) -> safe P (throw (A := A) e) Q E.
  Proof. intros HE s _ H. split; [apply cgrow_refl|]. cbn. auto. Qed.
  Lemma safe_bind {A B} (m : M S A) (k : A -> M S B) P Q R E :
    safe P m Q E -> (forall a, safe (Q a) (k a) R E) -> safe P (bind m k) R E.
  Proof.
    intros Hm Hk s Hc HP. destruct (Hm s Hc HP) as (G & H). unfold bind. destruct (m s) as [[a|e| |] s']; cbn [fst snd] in *; try (now split).
    destruct (Hk a s') as (G' & H'); [eapply cgrow_closed; eassumption|exact H|]. split; [eapply cgrow_trans; eassumption|exact H'].
  Qed.
  Lemma safe_if {A} (b : bool) (m n : M S A) P Q E : safe P m Q E -> safe P n Q E -> safe P (if b then m else n) Q E.
  Proof. destruct b; auto. Qed.
  Lemma safe_weaken {A} (m : M S A) (P P' : S -> Prop) (Q Q' : A -> S -> Prop) (E : S -> Prop) :
    safe P m Q E -> (forall s, P' s -> P s) -> (forall a s, Q a s -> Q' a s) -> safe P' m Q' E.
  Proof.
    intros H HP HQ s Hc HPs. destruct (H s Hc (HP s HPs)) as (G & H'). split; [exact G|]. destruct (fst (m s)); auto.
  Qed.
End Safe.

(** ** The builder *)

Notation fw := (fun s : fsn * db => db_w (snd s)).
Definition I (s : fsn * db) : Prop := linked (fw s) (f_links (fst s)).
Notation T := (fun _ => True).
(** A step of the helper alone, with what is known of its result. *)
Notation safe_d m Q := (safe db_w T m Q T).
Notation safe_f P m Q := (safe fw P m Q I).
Notation safe_i m := (safe fw I m (fun _ => I) I).
Definition xlinked (c : xnode * Z) (d : db) : Prop := linked (db_w d) (node_links (fst (fst c))).

Lemma safe_d_same {A} (m : M db A) (Q : A -> db -> Prop) :
  (forall d, db_w (snd (m d)) = db_w d) -> (forall d a, fst (m d) = Ok a -> Q a (snd (m d))) -> safe_d m Q.
Proof.
  intros H HQ d _ _. rewrite H. split; [apply cgrow_refl|]. specialize (HQ d). destruct (fst (m d)); auto.
Qed.
Lemma safe_Done : safe_d Done (fun _ => T).
Proof. apply safe_d_same; [|auto]. intros d. unfold Done. destruct (db_err (prepareNext d)); cbn; apply prepareNext_w. Qed.
Lemma safe_Next : safe_d Next (fun _ => T).
Proof. apply safe_d_same; [|auto]. intros d. unfold Next. cbn. destruct (db_err (prepareNext d)); cbn; apply prepareNext_w. Qed.

Lemma safe_on_db {A} (m : M db A) Q : safe_d m Q -> safe_f I (on_db m) (fun c s => I s /\ Q c (snd s)).
Proof.
  intros H [n d] Hc HI. destruct (H d Hc Logic.I) as (G & H'). unfold on_db. cbn [fst snd] in *. destruct (m d) as [r d'].
  cbn [fst snd] in *. assert (HI' : I (n, d')) by (unfold I in *; cbn [fst snd] in *; eapply linked_grow; eassumption).
  split; [exact G|]. destruct r; auto.
Qed.
Lemma safe_AddChild x sz : safe_f (fun s => I s /\ xlinked (x, sz) (snd s)) (AddChild x sz) (fun _ => I).
Proof.
  intros [n d] Hc (HI & Hx). unfold AddChild, Add, xlinked in *. cbn [fst snd] in *.
  pose proof (add_cgrow (fst x) (snd x) (db_w d) Hx) as G. pose proof (add_stored (fst x) (snd x) (db_w d)) as Hs.
  pose proof (add_ok (fst x) (snd x) (db_w d)) as Ho.
  destruct (dserv_add _ _ _) as [r w']. cbn [fst snd] in *. split; [exact G|].
  assert (K : r = Ok tt -> I (mkFsn (f_prefix n) (f_bytes n) (f_links n ++ [make_link [] (fst x)]) (AddBlockSize sz (f_file n)), db_set_w w' d)).
  { intros E. unfold I in *. cbn [fst snd f_links db_w db_set_w] in *. apply linked_app; [eapply linked_grow; eassumption|].
    intros l [<-|[]]. cbn. auto. }
  destruct r as [[]| | |]; auto; intros Ha; apply K, Ho; eapply cgrow_can_add; eassumption.
Qed.
Lemma safe_commit : safe_i commit.
Proof.
  intros [n d] Hc HI. unfold commit. cbn [fst snd]. unfold Commit. destruct (GetBytes (f_file n)); cbn [rbind fst snd]; (split; [apply cgrow_refl|auto]).
Qed.
Lemma safe_with_new n m : f_links n = [] -> safe_i m -> safe_d (with_new n m) xlinked.
Proof.
  intros Hn H d Hc _. unfold with_new. destruct (H (n, d)) as (G & H'); [exact Hc|unfold I; cbn [fst]; rewrite Hn; apply linked_nil|].
  destruct (m (n, d)) as [[[]|e| |] [n' d']]; cbn [fst snd] in *; split; auto.
Qed.
Lemma safe_leaf t : safe_d (NewLeafDataNode t) xlinked.
Proof.
  unfold NewLeafDataNode. eapply safe_bind; [apply safe_Next|]. intros data.
  eapply safe_bind with (Q := fun n (_ : db) => node_links n = []).
  - apply safe_d_same; [reflexivity|]. intros d n. cbn [fst]. unfold NewLeafNode. destruct (_ <? _); [discriminate|].
    destruct (db_raw d); [now intros [= <-]|]. unfold Commit. destruct (GetBytes _); cbn [rbind]; try discriminate. now intros [= <-].
  - intros n. eapply safe_bind with (Q := fun x (_ : db) => node_links (fst x) = []).
    + intros d _ Hn. unfold ProcessFileStore. destruct (db_fs d), n; cbn; split; auto using cgrow_refl.
    + intros x. eapply safe_weaken; [apply safe_ret|intros ? H; exact H|]. intros a d (-> & H). unfold xlinked. cbn [fst]. rewrite H. apply linked_nil.
Qed.

Lemma safe_i_ret {A} (a : A) : safe_f I (ret a) (fun _ => I).
Proof. intros s _ H. split; [apply cgrow_refl|exact H]. Qed.
Lemma safe_d_ret {A} (a : A) P : safe db_w P (ret a) (fun _ => T) T.
Proof. intros s _ H. split; [apply cgrow_refl|exact Logic.I]. Qed.
Lemma safe_fill_loop mk : safe_d mk xlinked -> forall fuel, safe_i (fill_loop mk fuel).
Proof.
  intros Hm fuel. induction fuel as [|f IH]; intros s Hc HI; cbn [fill_loop]; destruct (_ <? _); try (split; [apply cgrow_refl|exact HI]);
  match goal with |- context [bind ?m ?k s] => assert (G : safe_i (bind m k)); [|exact (G s Hc HI)] end.
  all: eapply safe_bind; [apply safe_on_db, safe_Done|]; intros [|];
    [eapply safe_weaken; [apply safe_ret|intros ? H; exact H|]; cbn; tauto|];
    eapply safe_bind; [eapply safe_weaken; [apply safe_on_db, Hm|cbn; tauto|intros a s' H; exact H]|]; intros [x sz];
    eapply safe_bind; [apply safe_AddChild|]; intros []; first [apply safe_fuel; now auto|exact IH].
Qed.
Lemma safe_FillNodeLayer : safe_i FillNodeLayer.
Proof.
  intros s Hc HI. unfold FillNodeLayer.
  match goal with |- context [bind ?m ?k s] => assert (G : safe_i (bind m k)); [|exact (G s Hc HI)] end.
  eapply safe_bind; [apply safe_fill_loop, safe_leaf|]. intros []. apply safe_commit.
Qed.
Lemma safe_add_children mk k : safe_d mk xlinked -> safe_i (add_children mk k).
Proof.
  intros Hm. induction k as [|k IH]; cbn [add_children]; [apply safe_i_ret|].
  eapply safe_bind; [apply safe_on_db, safe_Done|]; intros [|];
    [eapply safe_weaken; [apply safe_ret|intros ? H; exact H|]; cbn; tauto|];
    eapply safe_bind; [eapply safe_weaken; [apply safe_on_db, Hm|cbn; tauto|intros a s' H; exact H]|]; intros [x sz];
    eapply safe_bind; [apply safe_AddChild|]; intros []; exact IH.
Qed.
Lemma safe_depth_loop fill : (forall z, safe_d (fill z) xlinked) -> forall fuel depth mx, safe_i (depth_loop fill fuel depth mx).
Proof.
  intros Hf. induction fuel as [|f IH]; intros depth mx; cbn [depth_loop];
    (apply safe_if; [|apply safe_i_ret]);
    (eapply safe_bind; [apply safe_on_db, safe_Done|]); intros [|];
    try (eapply safe_weaken; [apply safe_ret|intros ? H; exact H|]; cbn; tauto);
    (eapply safe_bind; [eapply safe_weaken; [apply safe_add_children, Hf|cbn; tauto|intros a s' H; exact H]|]); intros []; [apply safe_fuel; auto|apply IH].
Qed.
Lemma safe_fillTrickleRec fuel : forall mx, safe_i (fillTrickleRec fuel mx).
Proof.
  induction fuel as [|f IH]; intros mx; [apply safe_fuel; auto|]. cbn [fillTrickleRec].
  eapply safe_bind; [apply safe_FillNodeLayer|]. intros []. eapply safe_bind with (Q := fun _ => I); [|intros []; apply safe_commit].
  apply safe_depth_loop. intros z d. now apply safe_with_new.
Qed.
Lemma safe_new_subtree fuel z : safe_d (new_subtree fuel z) xlinked.
Proof. intros d. unfold new_subtree. apply safe_with_new; [reflexivity|apply safe_fillTrickleRec]. Qed.
Lemma safe_fillNodeRec depth : safe_i (fillNodeRec depth).
Proof.
  induction depth as [|d IH]; intros s Hc HI; cbn [fillNodeRec]; [split; [apply cgrow_refl|intros _; exact HI]|].
  match goal with |- context [bind ?m ?k s] => assert (G : safe_i (bind m k)); [|exact (G s Hc HI)] end.
  eapply safe_bind; [apply safe_fill_loop|intros []; apply safe_commit]. destruct d as [|d]; [apply safe_leaf|].
  intros b. now apply safe_with_new.
Qed.

(** ** The layouts *)

Lemma safe_Add x : safe db_w (fun d => linked (db_w d) (node_links (fst x))) (Add x) (fun _ => T) T.
Proof.
  intros d Hc Hx. unfold Add. pose proof (add_cgrow (fst x) (snd x) (db_w d) Hx) as G. destruct (dserv_add _ _ _) as [[] w']; (split; [exact G|cbn; auto]).
Qed.
Lemma safe_layout_loop fuel : forall depth root fs, safe db_w (fun d => linked (db_w d) (node_links (fst root))) (layout_loop fuel depth root fs)
  (fun x d => linked (db_w d) (node_links (fst x))) T.
Proof.
  induction fuel as [|f IH]; intros depth root fs; cbn [layout_loop];
  (eapply safe_bind with (Q := fun _ d => linked (db_w d) (node_links (fst root)));
    [intros d Hc H; destruct (safe_Done d Hc Logic.I) as (G & H'); split; [exact G|]; destruct (fst (Done d)); auto; eapply linked_grow; eassumption|]);
  intros [|]; try (eapply safe_weaken; [apply safe_ret|intros ? H; exact H|]; cbn; now intros a s (-> & H)).
  - apply safe_fuel. auto.
  - eapply safe_bind with (Q := xlinked).
    + intros d Hc Hl. unfold with_new. set (n := NewFSNodeOverDag _ _).
      assert (G : safe_f (fun s => I s /\ xlinked (root, fs) (snd s)) (bind (AddChild root fs) (fun _ => fillNodeRec depth)) (fun _ => I)).
      { eapply safe_bind; [apply safe_AddChild|]. intros []. apply safe_fillNodeRec. }
      destruct (G (n, d)) as (G1 & G2); [exact Hc|split; [apply linked_nil|exact Hl]|].
      destruct (bind _ _ (n, d)) as [[[]|e| |] [n' d']]; cbn [fst snd] in *; split; auto.
    + intros [x z]. apply IH.
Qed.
Lemma safe_balanced fuel : safe_d (Balanced.Layout fuel) (fun _ => T).
Proof.
  unfold Balanced.Layout. eapply safe_bind; [apply safe_Done|]. intros [|].
  - eapply safe_bind with (Q := fun n (_ : db) => node_links n = []).
    + apply safe_d_same; [reflexivity|]. intros d n. cbn [fst]. unfold NewLeafNode. destruct (_ <? _); [discriminate|].
      destruct (db_raw d); [now intros [= <-]|]. unfold Commit. destruct (GetBytes _); cbn [rbind]; try discriminate. now intros [= <-].
    + intros n. eapply safe_bind; [eapply safe_weaken; [apply (safe_Add (n, None))| |intros a s H; exact H]; cbn [fst]; intros d ->; apply linked_nil|].
      intros []. apply safe_d_ret.
  - eapply safe_bind; [apply safe_leaf|]. intros [x z]. eapply safe_bind; [apply safe_layout_loop|]. intros root.
    eapply safe_bind; [apply safe_Add|]. intros []. apply safe_d_ret.
Qed.
Lemma safe_trickle fuel : safe_d (Trickle.Layout fuel) (fun _ => T).
Proof.
  unfold Trickle.Layout. eapply safe_bind; [apply safe_new_subtree|]. intros [x z].
  eapply safe_bind; [apply (safe_Add x)|]. intros []. apply safe_d_ret.
Qed.
Lemma build_cgrow layout dbp fi spl w : closed w -> safe_d layout (fun _ => T) -> cgrow w (snd (build layout dbp fi spl w)).
Proof.
  intros Hc H. unfold build, New. destruct (_ && _); [apply cgrow_refl|].
  match goal with |- context [layout ?d] => destruct (H d Hc Logic.I) as (G & _); destruct (layout d) end. exact G.
Qed.

(** ** Append *)

Lemma safe_get_fsn P : safe_f (fun s => I s /\ P s) get_fsn (fun n s => n = fst s /\ I s /\ P s).
Proof. intros s _ H. split; [apply cgrow_refl|]. cbn. auto. Qed.
Lemma safe_appendFillLastChild fuel rec depth rep : (forall z, safe_i (rec z)) -> safe_i (appendFillLastChild fuel rec depth rep).
Proof.
  intros Hr. unfold appendFillLastChild.
  eapply safe_bind with (Q := fun n s => n = fst s /\ I s); [intros s _ H; split; [apply cgrow_refl|cbn; auto]|]. intros n.
  eapply safe_bind with (Q := fun b s => b = snd s /\ closed (fw s) /\ n = fst s /\ I s); [intros s Hc H; split; [apply cgrow_refl|cbn; auto]|]. intros b.
  apply safe_if; [eapply safe_weaken; [apply safe_ret|intros ? H; exact H|cbn; tauto]|].
  eapply safe_bind; [apply safe_lift; tauto|]. intros c.
  eapply safe_bind with (Q := fun c' s => linked (fw s) (f_links c') /\ linked (fw s) (f_links n) /\ I s).
  - intros [n0 d] Hc (Ec & -> & _ & -> & HI). cbn [fst snd] in *. unfold on_fsn. cbn [fst snd].
    destruct (Hr (depth - 1) (c, d)) as (G & H).
    + exact Hc.
    + unfold I. cbn [fst snd]. unfold GetChild in Ec. destruct (_ <? 0); [discriminate|]. destruct (nth_error _ _) as [l|]; [|discriminate].
      destruct (dserv_get (db_w d) (lto l)) as [k| | |] eqn:Eg; cbn [rbind] in Ec; try discriminate. apply linked_get in Eg; [|exact Hc].
      destruct k as [|p b ls]; [discriminate|]. unfold NewFSNFromDag in Ec. destruct (FSNodeFromBytes b); cbn [rbind] in Ec; try discriminate.
      injection Ec as <-. exact Eg.
    + destruct (rec (depth - 1) (c, d)) as [[[]|e| |] [c' d']]; cbn [fst snd] in *; (split; [exact G|]);
        assert (HI' : linked (db_w d') (f_links n0)) by (eapply linked_grow; eassumption); auto.
  - intros c'. eapply safe_bind with (Q := fun n1 s => linked (fw s) (f_links n1) /\ linked (fw s) (f_links c')).
    + intros s _ (Hc' & Hn & HI). split; [apply cgrow_refl|]. cbn [lift fst snd]. destruct (RemoveChild _ n) as [n1| | |] eqn:E; auto.
      split; [|exact Hc']. unfold RemoveChild in E. destruct (RemoveBlockSize _ _); cbn [rbind] in E; try discriminate.
      destruct (_ <=? _); [discriminate|]. injection E as <-. cbn [f_links]. eapply linked_incl; [|exact Hn].
      intros l Hl. apply in_app_iff in Hl. destruct Hl as [Hl|Hl]; [eapply in_firstn|eapply in_skipn]; exact Hl.
    + intros n1. eapply safe_bind with (Q := fun _ s => I s /\ linked (fw s) (f_links c')).
      * intros [n0 d] _ H. split; [apply cgrow_refl|]. exact H.
      * intros []. eapply safe_bind; [apply safe_lift; tauto|]. intros filled.
        eapply safe_bind; [eapply safe_weaken; [apply safe_AddChild| |intros a s H; exact H]|].
        -- intros s (E & HI & Hl). split; [exact HI|]. unfold xlinked. cbn [fst]. unfold Commit in E. destruct (GetBytes _); cbn [rbind] in E; try discriminate.
           injection E as <-. exact Hl.
        -- intros []. apply safe_if; [apply safe_i_ret|]. apply safe_add_children, safe_new_subtree.
Qed.
Lemma safe_get_db : safe_f I get_db (fun _ => I).
Proof. intros s _ H. split; [apply cgrow_refl|exact H]. Qed.
Lemma safe_get_n : safe_f I get_fsn (fun _ => I).
Proof. intros s _ H. split; [apply cgrow_refl|exact H]. Qed.
Lemma safe_done : safe_f I (on_db Done) (fun _ => I).
Proof. eapply safe_weaken; [apply safe_on_db, safe_Done|auto|cbn; tauto]. Qed.
Lemma safe_appendRec fuel rfuel : forall mx, safe_i (appendRec fuel rfuel mx).
Proof.
  induction rfuel as [|rf IH]; intros mx; cbn [appendRec]; (apply safe_if; [apply safe_i_ret|]);
    (eapply safe_bind; [apply safe_done|]); intros [|]; try apply safe_i_ret; [apply safe_fuel; auto|].
  eapply safe_bind; [apply safe_get_n|]. intros n. eapply safe_bind; [apply safe_get_db|]. intros b.
  destruct (trickleDepthInfo n (db_maxlinks b)) as [d0 rep].
  eapply safe_bind with (Q := fun _ => I); [apply safe_if; [eapply safe_bind; [apply safe_FillNodeLayer|intros []; apply safe_i_ret]|apply safe_i_ret]|].
  intros depth. apply safe_if; [apply safe_i_ret|]. eapply safe_bind; [apply safe_appendFillLastChild, IH|]. intros [].
  eapply safe_bind; [apply safe_done|]. intros d2. apply safe_if; [|apply safe_i_ret].
  apply safe_depth_loop. apply safe_new_subtree.
Qed.
Lemma safe_append_body fuel rfuel : safe_i (append_body fuel rfuel).
Proof.
  unfold append_body. eapply safe_bind; [apply safe_get_n|]. intros n. eapply safe_bind; [apply safe_get_db|]. intros b.
  destruct (trickleDepthInfo n (db_maxlinks b)) as [d0 rep]. eapply safe_bind with (Q := fun _ => I).
  - apply safe_if; [|apply safe_i_ret]. eapply safe_bind; [apply safe_FillNodeLayer|]. intros [].
    eapply safe_bind; [apply safe_done|]. intros d1. apply safe_i_ret.
  - intros [depth|]; [|apply safe_i_ret]. eapply safe_bind; [apply safe_appendFillLastChild; intros z; apply safe_appendRec|]. intros [].
    eapply safe_bind; [apply safe_done|]. intros d2.
    eapply safe_bind; [apply safe_depth_loop, safe_new_subtree|]. intros []. apply safe_commit.
Qed.
(** Append, whatever happens; the node afterwards has its children in the store if it
    succeeded or no Add fails. *)
Lemma trickle_append_cgrow fuel rfuel dbp fi spl base w : closed w -> linked w (node_links base) ->
  let '(r, base', w') := trickle_append fuel rfuel dbp fi spl base w in
  cgrow w w' /\ (match r with Ok root => base' = root /\ linked w' (node_links root) | _ => can_add w' -> linked w' (node_links base') end).
Proof.
  intros Hc Hl. unfold trickle_append, New. destruct (_ && _); [split; [apply cgrow_refl|auto]|]. unfold Append.
  destruct base as [p b|p b ls]; [split; [apply cgrow_refl|auto]|].
  destruct (NewFSNFromDag p b ls) as [n| | |] eqn:En; try (split; [apply cgrow_refl|auto]).
  match goal with |- context [append_body fuel rfuel (n, ?d)] => destruct (safe_append_body fuel rfuel (n, d)) as (G & H) end.
  - exact Hc.
  - unfold NewFSNFromDag in En. destruct (FSNodeFromBytes b); cbn [rbind] in En; try discriminate. injection En as <-. exact Hl.
  - destruct (append_body fuel rfuel _) as [[[]|e| |] [n' d']]; cbn [fst snd] in *; auto.
Qed.
