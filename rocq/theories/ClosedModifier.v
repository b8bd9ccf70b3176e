(** The modifier keeps the store closed. *)
From Coq Require Import Permutation.
From Verif Require Import Base Pb FSNode Dag Builder Balanced Trickle Importer Reader Modifier SpecFile SpecStore SpecAppend SpecModifier
  DagProofs DirBasic BuilderProofs ModifierProofs ModifierRun GrowProofs ModifierFacts ClosedProofs.

(** The current node has its children in the store. *)
Definition J (s : mst) : Prop := match m_node (fst s) with Some n => linked (snd s) (node_links n) | None => True end.
Notation mw := (fun s : mst => snd s).
Notation safe_m P m Q := (safe mw P m Q J).
Notation safe_j m := (safe mw J m (fun _ => J) J).

Lemma J_grow m w w' : cgrow w w' -> J (m, w) -> J (m, w').
Proof. unfold J. cbn [fst snd]. destruct (m_node m); [|auto]. intros G. now apply linked_grow. Qed.

Lemma safe_j_ret {A} (a : A) : safe_m J (ret a) (fun _ => J).
Proof. intros s _ H. split; [apply cgrow_refl|exact H]. Qed.
Lemma safe_j_lift {A} (r : res A) : safe_m J (lift r) (fun _ => J).
Proof. intros s _ H. split; [apply cgrow_refl|]. cbn. destruct r; auto. Qed.
Lemma safe_j_throw {A} e : safe_m J (throw (A := A) e) (fun _ => J).
Proof. intros s _ H. split; [apply cgrow_refl|cbn; auto]. Qed.
Lemma safe_j_bind {A B} (m : M mst A) (k : A -> M mst B) P : safe_m P m (fun _ => J) -> (forall a, safe_m J (k a) (fun _ => J)) -> safe_m P (bind m k) (fun _ => J).
Proof. intros Hm Hk. eapply safe_bind; [exact Hm|exact Hk]. Qed.
(** A step that leaves the store and the current node alone. *)
Lemma safe_j_same {A} (m : M mst A) :
  (forall s, snd (snd (m s)) = snd s) -> (forall s, m_node (fst (snd (m s))) = m_node (fst s)) -> safe_m J m (fun _ => J).
Proof.
  intros Hw Hn s _ H. rewrite Hw. split; [apply cgrow_refl|]. assert (H' : J (snd (m s))) by (unfold J; now rewrite Hw, Hn).
  destruct (fst (m s)); auto.
Qed.

Create HintDb closeddb.
#[local] Hint Resolve safe_j_ret safe_j_lift safe_j_throw : closeddb.
Ltac closed_seq :=
  repeat (intros; first [ solve [auto with closeddb nocore] | apply safe_j_bind
    | match goal with |- safe _ _ (match ?x with _ => _ end) _ _ => destruct x end
    | apply safe_j_same; intros; cbn; repeat (match goal with |- context [match ?x with _ => _ end] => destruct x end; cbn; try reflexivity); reflexivity ]).

Lemma safe_get_mod : safe_m J get_mod (fun _ => J).
Proof. now apply safe_j_same. Qed.
#[local] Hint Resolve safe_get_mod : closeddb.
Lemma safe_upd f : (forall m, m_node (f m) = m_node m) -> safe_j (upd_mod f).
Proof. intros H. apply safe_j_same; [reflexivity|]. intros s. apply H. Qed.
Lemma safe_cur_node : safe_m J cur_node (fun _ => J).
Proof. apply safe_j_same; intros s; unfold cur_node; now destruct (m_node (fst s)) eqn:E. Qed.
#[local] Hint Resolve safe_cur_node : closeddb.
Lemma safe_mod_add n : safe_m (fun s => linked (snd s) (node_links n) /\ J s) (mod_add n) (fun _ => J).
Proof.
  intros [m w] Hc (Hl & HJ). unfold mod_add. cbn [fst snd]. pose proof (add_cgrow n None w Hl) as G.
  destruct (dserv_add n None w) as [r w']. cbn [fst snd] in *. split; [exact G|]. destruct r; [|intros _..]; eapply J_grow; eassumption.
Qed.
Lemma safe_append_cur chunks : safe_m J (append_cur chunks) (fun nn s => linked (snd s) (node_links nn) /\ J s).
Proof.
  intros [m w] Hc HJ. unfold append_cur. cbn [fst snd]. pose proof HJ as HJ'. unfold J in HJ. cbn [fst snd] in HJ.
  destruct (m_node m) as [n|] eqn:En; [|split; [apply cgrow_refl|intros _; exact HJ']]. unfold appendData.
  match goal with |- context [trickle_append ?a ?b ?c ?d ?e ?f ?g] => pose proof (trickle_append_cgrow a b c d e f g Hc HJ) as H;
    destruct (trickle_append a b c d e f g) as [[r n'] w'] end. destruct H as (G & H). cbn [fst snd].
  split; [exact G|]. destruct r as [root| | |]; try exact H. destruct H as (-> & H). split; exact H.
Qed.
Lemma safe_expand size : safe_j (expandSparse size).
Proof. unfold expandSparse. eapply safe_bind; [apply safe_append_cur|]. intros nn. apply safe_mod_add. Qed.
#[local] Hint Resolve safe_expand : closeddb.

(** ** Overwriting *)

Lemma add_leaf_cgrow n buf w : node_links n = [] -> let '(r, _, w') := add_leaf n buf w in
  cgrow w w' /\ (forall k, r = Ok k -> stored w' k = true).
Proof.
  intros Hn. unfold add_leaf. assert (Hl : linked w (node_links n)) by (rewrite Hn; apply linked_nil).
  pose proof (add_cgrow n None w Hl) as G. pose proof (add_stored n None w) as Hs. destruct (dserv_add n None w) as [[[]| | |] w'];
    cbn [fst snd] in *; (split; [exact G|]); intros k [= <-]. auto.
Qed.
Lemma modify_leaf_cgrow n off buf w : node_links n = [] -> let '(r, _, w') := modify_leaf n off buf w in
  cgrow w w' /\ (forall k, r = Ok k -> stored w' k = true).
Proof.
  intros Hn. unfold modify_leaf. destruct n as [p d|p b ls].
  - destruct (_ <? _); [split; [apply cgrow_refl|discriminate]|]. destruct (buf_read _ _). now apply add_leaf_cgrow.
  - destruct (FSNodeFromBytes b); try (split; [apply cgrow_refl|discriminate]). destruct (_ <? _); [split; [apply cgrow_refl|discriminate]|].
    destruct (buf_read _ _). destruct (GetBytes _); try (split; [apply cgrow_refl|discriminate]). now apply add_leaf_cgrow.
Qed.
Lemma linked_set_link w i k ls : linked w ls -> stored w k = true -> linked w (set_link i k ls).
Proof.
  revert i. induction ls as [|l r IH]; intros [|i] Hl Hk; cbn [set_link]; auto.
  - intros x [<-|Hx]; [exact Hk|]. apply Hl. now right.
  - intros x [<-|Hx]; [apply Hl; now left|]. apply (IH i); auto. intros y Hy. apply Hl. now right.
Qed.
Lemma modify_links_cgrow rec :
  (forall c o b w, closed w -> linked w (node_links c) -> let '(r, _, w') := rec c o b w in cgrow w w' /\ (forall k, r = Ok k -> stored w' k = true)) ->
  forall sizes i cur off ls buf w, closed w -> linked w ls ->
    let '(_, ls', _, w') := modify_links rec sizes i cur off ls buf w in cgrow w w' /\ linked w' ls'.
Proof.
  intros Hr. induction sizes as [|bs r IH]; intros i cur off ls buf w Hc Hl; cbn [modify_links]; [split; [apply cgrow_refl|exact Hl]|].
  destruct (off <? _); [|now apply IH]. destruct (nth_error ls i) as [l|]; [|split; [apply cgrow_refl|exact Hl]].
  destruct (dserv_get w (lto l)) as [child| | |] eqn:Eg; try (split; [apply cgrow_refl|exact Hl]).
  specialize (Hr child (u64 (off - cur)) buf w Hc (linked_get _ _ _ Hc Eg)). destruct (rec child _ buf w) as [[x buf'] w'].
  destruct Hr as (G & Hk). assert (Hl' : linked w' ls) by (eapply linked_grow; eassumption).
  destruct x as [k| | |]; try (split; [exact G|exact Hl']).
  assert (Hs : linked w' (lsort (set_link i k ls))) by (apply (proj1 (linked_sort _ _)), linked_set_link; auto).
  destruct (_ =? 0); [split; assumption|]. assert (Hc' : closed w') by (eapply cgrow_closed; eassumption).
  specialize (IH (S i) (u64 (cur + bs)) (u64 (cur + bs)) _ buf' w' Hc' Hs). destruct (modify_links _ _ _ _ _ _ _ _) as [[[? ?] ?] w2].
  destruct IH as (G2 & H2). split; [eapply cgrow_trans; eassumption|exact H2].
Qed.
Lemma modifyDag_cgrow fuel : forall n off buf w, closed w -> linked w (node_links n) ->
  let '(r, _, w', n') := modifyDag fuel n off buf w in cgrow w w' /\ (forall k, r = Ok k -> stored w' k = true) /\ linked w' (node_links n').
Proof.
  induction fuel as [|f IH]; intros n off buf w Hc Hl; cbn [modifyDag]; destruct (node_links n) as [|l0 r0] eqn:En;
    try (pose proof (modify_leaf_cgrow n off buf w En) as H; destruct (modify_leaf n off buf w) as [[? ?] ?]; destruct H as (G & H);
         split; [exact G|]; split; [exact H|]; rewrite En; apply linked_nil);
    destruct n as [p d|p b ls]; cbn [node_links] in En; try discriminate; subst ls;
    destruct (FSNodeFromBytes b) as [fs| | |]; try (split; [apply cgrow_refl|split; [discriminate|exact Hl]]).
  assert (Hr : forall c o bf ww, closed ww -> linked ww (node_links c) ->
    let '(r, _, w') := fst (modifyDag f c o bf ww) in cgrow ww w' /\ (forall k, r = Ok k -> stored w' k = true)).
  { intros c o bf ww Hc' Hl'. specialize (IH c o bf ww Hc' Hl'). destruct (modifyDag f c o bf ww) as [[[? ?] ?] ?]. cbn [fst]. tauto. }
  pose proof (modify_links_cgrow (fun c o bf ww => fst (modifyDag f c o bf ww)) Hr (d_blocksizes fs) 0 0 off (l0 :: r0) buf w Hc Hl) as H.
  destruct (modify_links _ _ _ _ _ _ _ _) as [[[x ls'] buf'] w']. destruct H as (G & H).
  destruct x as [[]| | |]; try (split; [exact G|split; [discriminate|exact H]]).
  pose proof (add_cgrow (NProto p b ls') None w' H) as G2. pose proof (add_stored (NProto p b ls') None w') as Hs.
  assert (H2 : linked (snd (dserv_add (NProto p b ls') None w')) (node_links (seal (NProto p b ls')))).
  { apply linked_seal. eapply linked_grow; [exact G2|exact H]. }
  destruct (dserv_add _ _ w') as [[[]| | |] w2]; cbn [fst snd] in *;
    (split; [eapply cgrow_trans; eassumption|split; [|exact H2]]); intros k [= <-]. auto.
Qed.
Lemma safe_modify_cur : safe_m J modify_cur (fun _ => J).
Proof.
  intros [m w] Hc HJ. pose proof HJ as HJ'. unfold modify_cur, J in *. cbn [fst snd] in *.
  destruct (m_node m) as [n|] eqn:En, (m_buf m) as [buf|] eqn:Eb; try (split; [apply cgrow_refl|]; cbn; rewrite ?En; auto).
  pose proof (modifyDag_cgrow (weight n) n (m_start m) buf w Hc HJ) as H.
  destruct (modifyDag _ _ _ _ _) as [[[r buf'] w'] n']. destruct H as (G & _ & H). cbn [fst snd m_set_buf m_set_node m_node]. split; [exact G|].
  destruct r; auto.
Qed.
#[local] Hint Resolve safe_modify_cur : closeddb.
Lemma safe_get_cur k : safe_j (get_cur k).
Proof.
  intros [m w] Hc HJ. unfold get_cur. cbn [fst snd]. destruct (dserv_get w k) as [n| | |] eqn:E; (split; [apply cgrow_refl|]); cbn; auto.
  unfold J. cbn. eapply linked_get; eassumption.
Qed.
#[local] Hint Resolve safe_get_cur : closeddb.

(** ** Truncating *)

Lemma trunc_links_cgrow rec :
  (forall c o w, closed w -> linked w (node_links c) -> let '(r, w') := rec c o w in cgrow w w' /\ (forall k, r = Ok k -> linked w' (node_links k))) ->
  forall ls i cur size f w, closed w ->
    let '(r, w') := trunc_links rec ls i cur size f w in
    cgrow w w' /\ (forall e k f', r = Ok (Some (e, k), f') -> linked w' (node_links k)).
Proof.
  intros Hr. induction ls as [|l r IH]; intros i cur size f w Hc; cbn [trunc_links]; [split; [apply cgrow_refl|discriminate]|].
  destruct (dserv_get w (lto l)) as [child| | |] eqn:Eg; try (split; [apply cgrow_refl|discriminate]).
  destruct (fileSize child) as [cs| | |]; try (split; [apply cgrow_refl|discriminate]). destruct (_ <? _); [|now apply IH].
  specialize (Hr child (u64 (size - cur)) w Hc (linked_get _ _ _ Hc Eg)). destruct (rec child _ w) as [[nc| | |] w']; destruct Hr as (G & H);
    (split; [exact G|]); try discriminate. intros e k f' [= _ <- _]. auto.
Qed.
Lemma dagTruncate_cgrow fuel : forall n size w, closed w -> linked w (node_links n) ->
  let '(r, w') := dagTruncate fuel n size w in cgrow w w' /\ (forall k, r = Ok k -> linked w' (node_links k)).
Proof.
  induction fuel as [|fu IH]; intros n size w Hc Hl; cbn [dagTruncate]; destruct n as [p d|p b [|l0 ls]]; cbn [node_links] in *.
  1,4: destruct (_ <? _); (split; [apply cgrow_refl|]); intros k [= <-]; apply linked_nil.
  1,3: destruct (FSNodeFromBytes b); try (split; [apply cgrow_refl|discriminate]); destruct (_ <? _); try (split; [apply cgrow_refl|discriminate]);
       destruct (WrapData _); (split; [apply cgrow_refl|]); intros k [= <-]; apply linked_nil.
  - destruct (FSNodeFromBytes b); (split; [apply cgrow_refl|discriminate]).
  - destruct (FSNodeFromBytes b) as [f| | |]; try (split; [apply cgrow_refl|discriminate]).
    pose proof (trunc_links_cgrow (dagTruncate fu) IH (l0 :: ls) 0 0 size (RemoveAllBlockSizes f) w Hc) as H.
    destruct (trunc_links _ _ _ _ _ _ _) as [[[[[e modified]|] f']| | |] w']; destruct H as (G & H); try (split; [exact G|discriminate]).
    specialize (H _ _ _ eq_refl). pose proof (add_cgrow modified None w' H) as G2. pose proof (add_stored modified None w') as Hs.
    destruct (dserv_add modified None w') as [[[]| | |] w2]; cbn [fst snd] in *; try (split; [eapply cgrow_trans; eassumption|discriminate]).
    destruct (GetBytes f') as [d| | |]; (split; [eapply cgrow_trans; eassumption|]); try discriminate.
    intros k [= <-]. apply (proj1 (linked_sort _ _)), linked_app.
    + eapply linked_incl; [intros l Hx; eapply in_firstn; exact Hx|]. eapply linked_grow; [|exact Hl]. eapply cgrow_trans; eassumption.
    + intros l [<-|[]]. cbn. auto.
Qed.
Lemma safe_truncate_cur size : safe_m J (truncate_cur size) (fun nn s => linked (snd s) (node_links nn) /\ J s).
Proof.
  intros [m w] Hc HJ. unfold truncate_cur, J in *. cbn [fst snd] in *. destruct (m_node m) as [n|] eqn:En; [|split; [apply cgrow_refl|]; cbn; now rewrite En].
  pose proof (dagTruncate_cgrow (weight n) n size w Hc HJ) as H. destruct (dagTruncate _ _ _ _) as [[nn| | |] w']; destruct H as (G & H);
    (split; [exact G|]); cbn [fst snd]; rewrite ?En; try (intros _; eapply linked_grow; eassumption).
  split; [auto|]. destruct n; cbn [m_change_node m_set_node m_node]; [|now apply H]. rewrite En. eapply linked_grow; eassumption.
Qed.

(** ** The calls *)

Section Ops.
  Variable split : bytes -> list bytes.
  Variable wbsize : Z.

  Lemma safe_append_buf buf : safe_m J (append_buf split buf) (fun nn s => linked (snd s) (node_links nn) /\ J s).
  Proof.
    intros s Hc HJ. destruct (safe_append_cur (split buf) s Hc HJ) as (G & H). unfold append_buf.
    destruct (append_cur (split buf) s) as [[n|e| |] [m w]]; cbn [fst snd] in *; (split; [exact G|]); auto.
    - split; [tauto|]. unfold J. cbn. tauto.
    - intros _. exact Logic.I.
  Qed.
  Lemma safe_append_rest buf : safe_j (bind (append_buf split buf) (fun nn => mod_add nn)).
  Proof. eapply safe_bind; [apply safe_append_buf|]. intros nn. apply safe_mod_add. Qed.
  Hint Resolve safe_append_rest : closeddb.
  Lemma safe_Sync : safe_j (Sync split).
  Proof. unfold Sync. closed_seq. Qed.
  Hint Resolve safe_Sync : closeddb.
  Lemma safe_Size : safe_m J mSize (fun _ => J).
  Proof. unfold mSize. closed_seq. Qed.
  Hint Resolve safe_Size : closeddb.
  Lemma safe_Write b : safe_m J (mWrite split wbsize b) (fun _ => J).
  Proof. unfold mWrite. closed_seq. Qed.
  Hint Resolve safe_Write : closeddb.
  Lemma safe_WriteAt b off : safe_m J (WriteAt split wbsize b off) (fun _ => J).
  Proof. unfold WriteAt. closed_seq. Qed.
  Lemma safe_readPrep : safe_m J (readPrep split) (fun _ => J).
  Proof. unfold readPrep. closed_seq. apply safe_j_same; intros s; now destruct (m_node (fst s)) eqn:E. Qed.
  Hint Resolve safe_readPrep : closeddb.
  Lemma safe_Read k : safe_m J (mRead split k) (fun _ => J).
  Proof. unfold mRead. closed_seq. Qed.
  Lemma safe_GetNode : safe_m J (mGetNode split) (fun _ => J).
  Proof. unfold mGetNode. apply safe_j_bind; [apply safe_Sync|intros _]. apply safe_j_same; intros s; now destruct (m_node (fst s)) eqn:E. Qed.
  Lemma safe_read_seek off wh : safe_m J (read_seek off wh) (fun _ => J).
  Proof.
    apply safe_j_same; intros s; unfold read_seek; destruct (m_read (fst s)) as [r'|]; try reflexivity;
    destruct (Seek (snd s) off wh r') as [[i e] r2]; reflexivity.
  Qed.
  Hint Resolve safe_read_seek : closeddb.
  Lemma safe_Seek off wh : safe_m J (mSeek split off wh) (fun _ => J).
  Proof. unfold mSeek. closed_seq. Qed.
  Lemma safe_cut size : safe_j (bind (truncate_cur size) (fun nn => bind (mod_add nn) (fun _ => upd_mod (m_set_node (Some nn))))).
  Proof.
    eapply safe_bind; [apply safe_truncate_cur|]. intros nn.
    eapply safe_bind with (Q := fun _ s => linked (snd s) (node_links nn) /\ J s).
    - intros s Hc (Hl & HJ). destruct (safe_mod_add nn s Hc (conj Hl HJ)) as (G & H). split; [exact G|].
      change (modifier * world)%type with mst in *. destruct (mod_add nn s) as [[a| | |] s']; cbn [fst snd] in *; try exact H.
      split; [eapply linked_grow; eassumption|exact H].
    - intros [] s _ (Hl & _). split; [apply cgrow_refl|exact Hl].
  Qed.
  Hint Resolve safe_cut : closeddb.
  Lemma safe_Truncate size : safe_m J (mTruncate split size) (fun _ => J).
  Proof. unfold mTruncate. closed_seq. Qed.

  (** A call, whatever its outcome. *)
  Lemma call_closed op s : closed (snd s) -> J s ->
    cgrow (snd s) (snd (mod_after split wbsize op s)) /\
    (can_add (snd s) \/ (exists o, mod_step split wbsize op s = Some (o, mod_after split wbsize op s)) -> J (mod_after split wbsize op s)).
  Proof.
    intros Hc HJ.
    assert (K : forall A (m : M mst A), safe_m J m (fun _ => J) -> forall P : Prop, (P -> exists a, fst (m s) = Ok a) ->
      cgrow (snd s) (snd (snd (m s))) /\ (can_add (snd s) \/ P -> J (snd (m s)))).
    { intros A m H P HP. destruct (H s Hc HJ) as (G & H'). split; [exact G|]. intros [Ha|Ha].
      - assert (Ha' : can_add (snd (snd (m s)))) by (eapply wgrow_can_add; [apply G|exact Ha]). destruct (fst (m s)); auto.
      - destruct (HP Ha) as (a & E). now rewrite E in H'. }
    destruct op; cbn [mod_after mod_step]; apply K;
      try first [apply safe_Write|apply safe_WriteAt|apply safe_Seek|apply safe_Truncate|apply safe_Read|apply safe_Size|apply safe_Sync|apply safe_GetNode].
    all: intros (o & E); match goal with |- exists _, fst ?x = _ => destruct x as [[?|?| |] ?] end; try discriminate; eexists; reflexivity.
  Qed.
End Ops.
