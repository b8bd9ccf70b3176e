(** Nothing is ever removed from the store, whatever the input and the outcome. *)
From Verif Require Import Base Pb FSNode Dag Builder Trickle Importer Reader Modifier BuilderProofs.

Section Grows.
  Context {S : Type} (pw : S -> world).
  Definition grows {A} (m : M S A) : Prop := forall s, wgrow (pw s) (pw (snd (m s))).

  Lemma grows_ret {A} (a : A) : grows (ret a).
  Proof. intros s. apply wgrow_refl. Qed.
  Lemma grows_lift {A} (r : res A) : grows (lift r).
  Proof. intros s. apply wgrow_refl. Qed.
  Lemma grows_throw {A} e : grows (A := A) (throw e).
  Proof. intros s. apply wgrow_refl. Qed.
  Lemma grows_bind {A B} (m : M S A) (k : A -> M S B) : grows m -> (forall a, grows (k a)) -> grows (bind m k).
  Proof.
    intros Hm Hk s. unfold bind. specialize (Hm s). destruct (m s) as [[a|e| |] s']; cbn [snd] in *; try assumption.
    eapply wgrow_trans; [exact Hm|apply Hk].
  Qed.
  Lemma grows_if {A} (b : bool) (m n : M S A) : grows m -> grows n -> grows (if b then m else n).
  Proof. destruct b; auto. Qed.
  Lemma grows_same {A} (m : M S A) : (forall s, pw (snd (m s)) = pw s) -> grows m.
  Proof. intros H s. rewrite H. apply wgrow_refl. Qed.
End Grows.

Lemma add_grow n o w : wgrow w (snd (dserv_add n o w)).
Proof.
  unfold dserv_add. destruct (w_addok w (w_calls w)); unfold wgrow; cbn; (split; [|auto]); [eauto|exists []; now rewrite app_nil_r].
Qed.

(** ** The importers and Append *)

Notation grows_d := (grows db_w).
Notation grows_f := (grows (fun s : fsn * db => db_w (snd s))).

Lemma prepareNext_w d : db_w (prepareNext d) = db_w d.
Proof. unfold prepareNext. destruct (db_next d), (db_err d); try reflexivity. destruct (db_spl d) as [|[|] ?]; reflexivity. Qed.
Lemma grows_Done : grows_d Done.
Proof. apply grows_same. intros d. unfold Done. destruct (db_err (prepareNext d)); cbn; apply prepareNext_w. Qed.
Lemma grows_Next : grows_d Next.
Proof. apply grows_same. intros d. unfold Next. cbn. destruct (db_err (prepareNext d)); cbn; apply prepareNext_w. Qed.
Lemma grows_Add x : grows_d (Add x).
Proof.
  intros d. unfold Add. pose proof (add_grow (fst x) (snd x) (db_w d)) as H. destruct (dserv_add _ _ _) as [r w']. exact H.
Qed.
Lemma grows_AddChild x sz : grows_f (AddChild x sz).
Proof.
  intros [n d]. unfold AddChild. pose proof (grows_Add x d) as H. destruct (Add x d) as [r d']. exact H.
Qed.
Lemma grows_on_db {A} (m : M db A) : grows_d m -> grows_f (on_db m).
Proof. intros H [n d]. unfold on_db. cbn [snd fst]. specialize (H d). destruct (m d) as [r d']. exact H. Qed.
Lemma grows_commit : grows_f commit.
Proof. apply grows_same. intros s. unfold commit. destruct (Commit (fst s)); reflexivity. Qed.
Lemma grows_with_new n m : grows_f m -> grows_d (with_new n m).
Proof. intros H d. unfold with_new. specialize (H (n, d)). destruct (m (n, d)) as [[[]|e| |] [n' d']]; exact H. Qed.
Lemma grows_ProcessFileStore n z : grows_d (ProcessFileStore n z).
Proof. apply grows_same. intros d. unfold ProcessFileStore. destruct (db_fs d), n; reflexivity. Qed.
Lemma grows_leaf t : grows_d (NewLeafDataNode t).
Proof.
  unfold NewLeafDataNode. apply grows_bind; [apply grows_Next|]. intros data.
  apply grows_bind; [now apply grows_same|]. intros n. apply grows_bind; [apply grows_ProcessFileStore|]. intros x. apply grows_ret.
Qed.

Lemma grows_fill_loop mk : grows_d mk -> forall fuel, grows_f (fill_loop mk fuel).
Proof.
  intros Hm fuel. induction fuel as [|f IH]; intros s; cbn [fill_loop]; destruct (_ <? _); try apply wgrow_refl;
  match goal with |- wgrow _ (db_w (snd (snd (?m s)))) => assert (G : grows_f m); [|exact (G s)] end.
  all: apply grows_bind; [apply grows_on_db, grows_Done|]; intros [|]; [apply grows_ret|];
    apply grows_bind; [now apply grows_on_db|]; intros c; apply grows_bind; [apply grows_AddChild|]; intros _; first [apply grows_lift|exact IH].
Qed.
Lemma grows_FillNodeLayer : grows_f FillNodeLayer.
Proof.
  intros s. unfold FillNodeLayer.
  match goal with |- wgrow _ (db_w (snd (snd (?m s)))) => assert (G : grows_f m); [|exact (G s)] end.
  apply grows_bind; [apply grows_fill_loop, grows_leaf|]. intros _. apply grows_commit.
Qed.
Lemma grows_add_children mk k : grows_d mk -> grows_f (add_children mk k).
Proof.
  intros Hm. induction k as [|k IH]; [apply grows_ret|]. cbn [add_children].
  apply grows_bind; [apply grows_on_db, grows_Done|]. intros [|]; [apply grows_ret|].
  apply grows_bind; [now apply grows_on_db|]. intros c. apply grows_bind; [apply grows_AddChild|]. intros _. exact IH.
Qed.
Lemma grows_depth_loop fill : (forall z, grows_d (fill z)) -> forall fuel depth mx, grows_f (depth_loop fill fuel depth mx).
Proof.
  intros Hf. induction fuel as [|f IH]; intros depth mx; cbn [depth_loop]; (apply grows_if; [|apply grows_ret]);
    (apply grows_bind; [apply grows_on_db, grows_Done|]); intros [|]; try apply grows_ret;
    (apply grows_bind; [apply grows_add_children, Hf|]); intros _; [apply grows_lift|apply IH].
Qed.
Lemma grows_fillTrickleRec fuel : forall mx, grows_f (fillTrickleRec fuel mx).
Proof.
  induction fuel as [|f IH]; intros mx; [apply grows_lift|]. cbn [fillTrickleRec].
  apply grows_bind; [apply grows_FillNodeLayer|]. intros _. apply grows_bind; [|intros _; apply grows_commit].
  apply grows_depth_loop. intros z d. now apply grows_with_new.
Qed.
Lemma grows_new_subtree fuel z : grows_d (new_subtree fuel z).
Proof. intros d. unfold new_subtree. apply grows_with_new, grows_fillTrickleRec. Qed.

Lemma grows_on_fsn n m : grows_f m -> grows_f (on_fsn n m).
Proof. intros H [n0 d]. unfold on_fsn. cbn [snd fst]. specialize (H (n, d)). destruct (m (n, d)) as [[[]|e| |] [n' d']]; exact H. Qed.
Lemma grows_appendFillLastChild fuel rec depth rep : (forall z, grows_f (rec z)) -> grows_f (appendFillLastChild fuel rec depth rep).
Proof.
  intros Hr. unfold appendFillLastChild. apply grows_bind; [now apply grows_same|]. intros n.
  apply grows_bind; [now apply grows_same|]. intros b. apply grows_if; [apply grows_ret|].
  apply grows_bind; [apply grows_lift|]. intros c. apply grows_bind; [now apply grows_on_fsn|]. intros c'.
  apply grows_bind; [apply grows_lift|]. intros n1. apply grows_bind; [now apply grows_same|]. intros _.
  apply grows_bind; [apply grows_lift|]. intros f. apply grows_bind; [apply grows_AddChild|]. intros _.
  apply grows_if; [apply grows_ret|]. apply grows_add_children, grows_new_subtree.
Qed.
Lemma grows_appendRec fuel rfuel : forall mx, grows_f (appendRec fuel rfuel mx).
Proof.
  induction rfuel as [|rf IH]; intros mx; cbn [appendRec]; (apply grows_if; [apply grows_ret|]);
    (apply grows_bind; [apply grows_on_db, grows_Done|]); intros [|]; try apply grows_ret; [apply grows_lift|].
  apply grows_bind; [now apply grows_same|]. intros n. apply grows_bind; [now apply grows_same|]. intros b.
  destruct (trickleDepthInfo n (db_maxlinks b)) as [d0 rep].
  apply grows_bind; [apply grows_if; [apply grows_bind; [apply grows_FillNodeLayer|intros _; apply grows_ret]|apply grows_ret]|].
  intros depth. apply grows_if; [apply grows_ret|]. apply grows_bind; [apply grows_appendFillLastChild, IH|]. intros _.
  apply grows_bind; [apply grows_on_db, grows_Done|]. intros d2. apply grows_if; [|apply grows_ret].
  apply grows_depth_loop. apply grows_new_subtree.
Qed.
Lemma grows_append_body fuel rfuel : grows_f (append_body fuel rfuel).
Proof.
  unfold append_body. apply grows_bind; [now apply grows_same|]. intros n. apply grows_bind; [now apply grows_same|]. intros b.
  destruct (trickleDepthInfo n (db_maxlinks b)) as [d0 rep]. apply grows_bind.
  - apply grows_if; [|apply grows_ret]. apply grows_bind; [apply grows_FillNodeLayer|]. intros _.
    apply grows_bind; [apply grows_on_db, grows_Done|]. intros d1. apply grows_ret.
  - intros [depth|]; [|apply grows_ret]. apply grows_bind; [apply grows_appendFillLastChild; intros z; apply grows_appendRec|]. intros _.
    apply grows_bind; [apply grows_on_db, grows_Done|]. intros d2.
    apply grows_bind; [apply grows_depth_loop, grows_new_subtree|]. intros _. apply grows_commit.
Qed.
Lemma trickle_append_grow fuel rfuel dbp fi spl base w : wgrow w (snd (trickle_append fuel rfuel dbp fi spl base w)).
Proof.
  unfold trickle_append, New. destruct (_ && _); [apply wgrow_refl|]. unfold Append. destruct base as [p b|p b ls]; [apply wgrow_refl|].
  destruct (NewFSNFromDag p b ls) as [n| | |]; try apply wgrow_refl.
  match goal with |- context [append_body fuel rfuel (n, ?d)] => pose proof (grows_append_body fuel rfuel (n, d)) as H end.
  destruct (append_body fuel rfuel _) as [[[]|e| |] [n' d']]; exact H.
Qed.

(** ** The modifier *)

Notation grows_m := (grows (fun s : mst => snd s)).

Create HintDb growdb.
Local Hint Resolve grows_ret grows_lift grows_throw wgrow_refl : growdb.
(** Goes through a sequence of steps. *)
Ltac grow_seq :=
  repeat (intros; first [ solve [auto with growdb nocore] | apply grows_bind
    | match goal with |- grows _ (match ?x with _ => _ end) => destruct x end
    | apply grows_same; intros; cbn; repeat (match goal with |- context [match ?x with _ => _ end] => destruct x end; cbn; try reflexivity); reflexivity ]).

Lemma grows_upd f : grows_m (upd_mod f).
Proof. now apply grows_same. Qed. Local Hint Resolve grows_upd : growdb.
Lemma grows_get_mod : grows_m get_mod.
Proof. now apply grows_same. Qed. Local Hint Resolve grows_get_mod : growdb.
Lemma grows_cur_node : grows_m cur_node.
Proof. apply grows_same. intros s. unfold cur_node. now destruct (m_node (fst s)). Qed. Local Hint Resolve grows_cur_node : growdb.
Lemma grows_mod_add n : grows_m (mod_add n).
Proof. intros s. unfold mod_add. pose proof (add_grow n None (snd s)) as H. destruct (dserv_add _ _ _). exact H. Qed. Local Hint Resolve grows_mod_add : growdb.
Lemma grows_append_cur chunks : grows_m (append_cur chunks).
Proof.
  intros s. unfold append_cur. destruct (m_node (fst s)) as [n|]; [|apply wgrow_refl]. unfold appendData.
  match goal with |- context [trickle_append ?a ?b ?c ?d ?e ?f ?g] => pose proof (trickle_append_grow a b c d e f g) as H;
    destruct (trickle_append a b c d e f g) as [[r n'] w'] end. exact H.
Qed. Local Hint Resolve grows_append_cur : growdb.
Lemma grows_expand size : grows_m (expandSparse size).
Proof. unfold expandSparse. grow_seq. Qed. Local Hint Resolve grows_expand : growdb.

Lemma add_leaf_grow n buf w : wgrow w (snd (add_leaf n buf w)).
Proof. unfold add_leaf. pose proof (add_grow n None w) as H. destruct (dserv_add n None w) as [[| | |] w']; exact H. Qed.
Lemma modify_leaf_grow n off buf w : wgrow w (snd (modify_leaf n off buf w)).
Proof.
  unfold modify_leaf. destruct n as [p d|p b ls].
  - destruct (_ <? _); [apply wgrow_refl|]. destruct (buf_read _ _). apply add_leaf_grow.
  - destruct (FSNodeFromBytes b); try apply wgrow_refl. destruct (_ <? _); [apply wgrow_refl|].
    destruct (buf_read _ _). destruct (GetBytes _); try apply wgrow_refl. apply add_leaf_grow.
Qed.
Lemma modify_links_grow rec : (forall c o b w, wgrow w (snd (rec c o b w))) ->
  forall sizes i cur off ls buf w, wgrow w (snd (modify_links rec sizes i cur off ls buf w)).
Proof. intros Hr. induction sizes as [|bs r IH]; intros i cur off ls buf w; cbn [modify_links]; [apply wgrow_refl|].
  repeat match goal with
  | |- wgrow _ (snd (match rec ?c ?o ?b ?w with _ => _ end)) => let H := fresh in pose proof (Hr c o b w) as H; destruct (rec c o b w) as [[[?|?| |] ?] ?]
  | |- wgrow _ (snd (modify_links _ _ _ _ _ _ _ _)) => first [apply IH | eapply wgrow_trans; [eassumption|apply IH]]
  | |- wgrow ?w (snd (match ?x with _ => _ end)) => destruct x
  | |- _ => first [apply wgrow_refl | assumption]
  end. Qed.
Lemma modifyDag_grow fuel : forall n off buf w, wgrow w (snd (fst (modifyDag fuel n off buf w))).
Proof.
  induction fuel as [|f IH]; intros n off buf w; cbn [modifyDag]; destruct (node_links n) as [|l0 r0];
    try (pose proof (modify_leaf_grow n off buf w) as H; destruct (modify_leaf n off buf w) as [[? ?] ?]; exact H);
    destruct n as [p d|p b ls]; try apply wgrow_refl; destruct (FSNodeFromBytes b) as [fs| | |]; try apply wgrow_refl.
  assert (Hr : forall c o bf ww, wgrow ww (snd (fst (modifyDag f c o bf ww)))) by (intros; apply IH).
  pose proof (modify_links_grow (fun c o bf ww => fst (modifyDag f c o bf ww)) Hr (d_blocksizes fs) 0 0 off ls buf w) as H.
  destruct (modify_links _ _ _ _ _ _ _ _) as [[[x ls'] buf'] w']. cbn [snd] in H. destruct x as [[]| | |]; try exact H.
  pose proof (add_grow (NProto p b ls') None w') as G. destruct (dserv_add _ _ w') as [[| | |] w2]; eapply wgrow_trans; try exact H; exact G.
Qed.
Lemma grows_modify_cur : grows_m modify_cur.
Proof.
  intros s. unfold modify_cur. destruct (m_node (fst s)) as [n|], (m_buf (fst s)) as [buf|]; try apply wgrow_refl.
  pose proof (modifyDag_grow (weight n) n (m_start (fst s)) buf (snd s)) as H.
  destruct (modifyDag _ _ _ _ _) as [[[r buf'] w'] n']. exact H.
Qed. Local Hint Resolve grows_modify_cur : growdb.
Lemma grows_get_cur k : grows_m (get_cur k).
Proof. apply grows_same. intros s. unfold get_cur. destruct (dserv_get _ _); reflexivity. Qed. Local Hint Resolve grows_get_cur : growdb.

Section Ops.
  Variable split : bytes -> list bytes.
  Variable wbsize : Z.

  Lemma grows_append_buf buf : grows_m (append_buf split buf).
  Proof.
    intros s. unfold append_buf. pose proof (grows_append_cur (split buf) s) as H.
    destruct (append_cur (split buf) s) as [[n|e| |] [m w]]; exact H.
  Qed. Local Hint Resolve grows_append_buf : growdb.
  Lemma grows_Sync : grows_m (Sync split).
  Proof. unfold Sync. grow_seq. Qed. Local Hint Resolve grows_Sync : growdb.
  Lemma grows_Size : grows_m mSize.
  Proof. unfold mSize. grow_seq. Qed. Local Hint Resolve grows_Size : growdb.
  Lemma grows_Write b : grows_m (mWrite split wbsize b).
  Proof. unfold mWrite. grow_seq. Qed. Local Hint Resolve grows_Write : growdb.
  Lemma grows_WriteAt b off : grows_m (WriteAt split wbsize b off).
  Proof. unfold WriteAt. grow_seq. Qed.
  Lemma grows_readPrep : grows_m (readPrep split).
  Proof. unfold readPrep. grow_seq. Qed. Local Hint Resolve grows_readPrep : growdb.
  Lemma grows_Read k : grows_m (mRead split k).
  Proof. unfold mRead. grow_seq. Qed.
  Lemma grows_GetNode : grows_m (mGetNode split).
  Proof. unfold mGetNode. grow_seq. Qed.
  Lemma grows_read_seek off wh : grows_m (read_seek off wh).
  Proof.
    apply grows_same. intros s. unfold read_seek. destruct (m_read (fst s)) as [r'|]; [|reflexivity].
    destruct (Seek (snd s) off wh r') as [[i e] r2]. reflexivity.
  Qed. Local Hint Resolve grows_read_seek : growdb.
  Lemma grows_Seek off wh : grows_m (mSeek split off wh).
  Proof. unfold mSeek. grow_seq. Qed.

  Lemma trunc_links_grow rec : (forall c o w, wgrow w (snd (rec c o w))) ->
    forall ls i cur size f w, wgrow w (snd (trunc_links rec ls i cur size f w)).
  Proof. intros Hr. induction ls as [|l r IH]; intros i cur size f w; cbn [trunc_links]; [apply wgrow_refl|].
    repeat match goal with
    | |- wgrow _ (snd (match rec ?c ?o ?w with _ => _ end)) => let H := fresh in pose proof (Hr c o w) as H; destruct (rec c o w) as [[?|?| |] ?]
    | |- wgrow _ (snd (trunc_links _ _ _ _ _ _ _)) => apply IH
    | |- wgrow ?w (snd (match ?x with _ => _ end)) => destruct x
    | |- _ => first [apply wgrow_refl | assumption]
    end. Qed.
  Lemma dagTruncate_grow fuel : forall n size w, wgrow w (snd (dagTruncate fuel n size w)).
  Proof. induction fuel as [|fu IH]; intros n size w; cbn [dagTruncate];
      repeat match goal with
      | |- context [trunc_links (dagTruncate fu) ?a ?b ?c ?d ?e ?f] => let H := fresh in pose proof (trunc_links_grow (dagTruncate fu) IH a b c d e f) as H;
          destruct (trunc_links (dagTruncate fu) a b c d e f) as [[[[[? ?]|] ?]| | |] ?]; cbn [snd] in H
      | |- context [dserv_add ?m None ?w] => let H := fresh in pose proof (add_grow m None w) as H; destruct (dserv_add m None w) as [[| | |] ?]; cbn [snd] in H
      | |- wgrow ?w (snd (match ?x with _ => _ end)) => destruct x
      | |- _ => first [apply wgrow_refl | assumption | (eapply wgrow_trans; eassumption)]
      end. Qed.
  Lemma grows_truncate_cur size : grows_m (truncate_cur size).
  Proof.
    intros s. unfold truncate_cur. destruct (m_node (fst s)) as [n|]; [|apply wgrow_refl].
    pose proof (dagTruncate_grow (weight n) n size (snd s)) as H. destruct (dagTruncate _ _ _ _) as [[nn| | |] w']; exact H.
  Qed. Local Hint Resolve grows_truncate_cur : growdb.
  Lemma grows_Truncate size : grows_m (mTruncate split size).
  Proof. unfold mTruncate. grow_seq. Qed.
End Ops.
