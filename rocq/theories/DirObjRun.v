(** Programs with several directories: no two directories share a node object. *)
From Verif Require Import Base Pb FSNode Dag Builder HashBits HashProofs Bitfield Hamt HamtExec Walk Directory DirObj SpecDirObj DirObjProofs TreeProofs.

Definition oinv (st : obj) : Prop :=
  (forall i d, nth_error (o_dirs st) i = Some d -> exists v, dview (o_nodes st) d = Some v) /\
  (forall i j di dj x, nth_error (o_dirs st) i = Some di -> nth_error (o_dirs st) j = Some dj -> owns di x -> owns dj x -> i = j).
(** Directory [i] has the cell [x]. *)
Definition has_cell (ds : list odir) (i x : nat) : Prop := exists d, nth_error ds i = Some d /\ owns d x.
(** The cells an operation may change. *)
Definition touched (op : oop) (ds : list odir) (x : nat) : Prop := encodes op x \/ edits op x \/ exists i, modifies op i /\ has_cell ds i x.

Lemma view_in hp d v x : dview hp d = Some v -> owns d x -> (x < length hp)%nat.
Proof. destruct d as [p est|h]; cbn; [|tauto]. unfold bview. intros E ->. apply nth_error_Some. destruct (nth_error hp p); [discriminate|]. discriminate E. Qed.
Lemma view_kind P hp hp' d v : frame P hp hp' -> dview hp d = Some v -> exists v', dview hp' d = Some v'.
Proof.
  intros (_ & _ & A) V. destruct d as [p est|h]; cbn in *; [|eauto]. unfold bview in *. destruct (nth_error hp p) as [[q d|q d l]|] eqn:E; try discriminate.
  destruct (A _ _ _ _ E) as (q1 & d1 & l1 & ->). cbn. eauto.
Qed.
Lemma view_same P hp hp' d v : frame P hp hp' -> (forall x, owns d x -> ~ P x) -> dview hp d = Some v -> dview hp' d = Some v.
Proof.
  intros F N V. destruct d as [p est|h]; cbn [dview] in *; [|assumption]. destruct (bview hp p est) as [b|] eqn:E; [|discriminate]. rewrite (bview_frame P hp hp' p est b); auto. apply N. reflexivity.
Qed.

(** What a step does. *)
Record oshape (op : oop) (st st' : obj) (i0 : nat) : Prop := mkShape {
  sh_frame : frame (touched op (o_dirs st)) (o_nodes st) (o_nodes st');
  sh_others : forall i d, i <> i0 -> nth_error (o_dirs st') i = Some d -> nth_error (o_dirs st) i = Some d;
  sh_new : forall d, nth_error (o_dirs st') i0 = Some d -> (exists v, dview (o_nodes st') d = Some v) /\ forall x, owns d x -> has_cell (o_dirs st) i0 x \/ (length (o_nodes st) <= x)%nat;
  sh_kept : forall j d, ~ modifies op j -> nth_error (o_dirs st) j = Some d -> nth_error (o_dirs st') j = Some d;
  sh_seal : forall x n, nth_error (o_nodes st) x = Some n -> encodes op x -> (forall i, modifies op i -> ~ has_cell (o_dirs st) i x) -> nth_error (o_nodes st') x = Some n \/ nth_error (o_nodes st') x = Some (seal n) }.

Lemma app_cases {A} (l : list A) x i y : nth_error (l ++ [x]) i = Some y -> (i <> length l /\ nth_error l i = Some y) \/ (i = length l /\ y = x).
Proof.
  intros E. destruct (Nat.lt_ge_cases i (length l)) as [H|H].
  - rewrite nth_error_app1 in E by assumption. left. split; [lia|assumption].
  - rewrite nth_error_app2 in E by assumption. destruct (i - length l)%nat eqn:D; cbn in E; [|destruct n; discriminate]. injection E as ->. right. split; [lia|reflexivity].
Qed.
Lemma set_cases {A} i j (x y : A) l : nth_error (set_nth i x l) j = Some y -> (i = j /\ y = x) \/ (i <> j /\ nth_error l j = Some y).
Proof. rewrite nth_error_set_nth. destruct (Nat.eqb_spec i j) as [->|N]; [|auto]. destruct (nth_error l j); [|discriminate]. intros E; injection E as ->. auto. Qed.

(** The directories stay as they are. *)
Lemma shape_nodes op st hp' w' : oinv st -> frame (touched op (o_dirs st)) (o_nodes st) hp' ->
  (forall x n, nth_error (o_nodes st) x = Some n -> encodes op x -> (forall i, modifies op i -> ~ has_cell (o_dirs st) i x) -> nth_error hp' x = Some n \/ nth_error hp' x = Some (seal n)) ->
  oshape op st (mkObj hp' (o_dirs st) w') 0.
Proof.
  intros [V U] F S. constructor; cbn [o_nodes o_dirs]; auto.
  intros d E. split; [|intros x Hx; left; exists d; auto]. destruct (V _ _ E) as [v Ev]. eapply view_kind; eassumption.
Qed.
Lemma shape_same op st w' : oinv st -> oshape op st (mkObj (o_nodes st) (o_dirs st) w') 0.
Proof. intros H. apply shape_nodes; [assumption|apply frame_refl|auto]. Qed.
Lemma shape_eq op st : oinv st -> oshape op st st 0.
Proof. intros H. pose proof (shape_same op st (o_world st) H) as K. destruct st. exact K. Qed.
(** A new directory. *)
Lemma shape_dir op st hp' d w' : oinv st -> frame (touched op (o_dirs st)) (o_nodes st) hp' -> (exists v, dview hp' d = Some v) -> (forall x, owns d x -> (length (o_nodes st) <= x)%nat) -> (forall x, ~ encodes op x) ->
  oshape op st (mkObj hp' (o_dirs st ++ [d]) w') (length (o_dirs st)).
Proof.
  intros [V U] F Hv Hx Hn. constructor; cbn [o_nodes o_dirs]; auto.
  - intros i d1 Hi E. apply app_cases in E. destruct E as [[_ E]|[E _]]; [assumption|contradiction].
  - intros d1 E. apply app_cases in E. destruct E as [[E _]|[_ ->]]; [contradiction|]. split; [assumption|]. intros x Ho. right. now apply Hx.
  - intros j d1 _ E. rewrite nth_error_app1; [assumption|]. apply nth_error_Some. congruence.
  - intros x n _ Hc. now destruct (Hn x).
Qed.
(** A changed directory. *)
Lemma shape_upd op st hp' i d d' v' w' : oinv st -> modifies op i -> nth_error (o_dirs st) i = Some d -> frame (touched op (o_dirs st)) (o_nodes st) hp' -> dview hp' d' = Some v' ->
  (forall x, owns d' x -> owns d x \/ (length (o_nodes st) <= x)%nat) ->
  (forall x n, nth_error (o_nodes st) x = Some n -> encodes op x -> (forall i, modifies op i -> ~ has_cell (o_dirs st) i x) -> nth_error hp' x = Some n \/ nth_error hp' x = Some (seal n)) ->
  oshape op st (mkObj hp' (set_nth i d' (o_dirs st)) w') i.
Proof.
  intros [V U] Hm Hi F Hv Hx Hs. constructor; cbn [o_nodes o_dirs]; auto.
  - intros j d1 Hj E. apply set_cases in E. destruct E as [[E _]|[_ E]]; [congruence|assumption].
  - intros d1 E. apply set_cases in E. destruct E as [[_ ->]|[E _]]; [|contradiction]. split; [eauto|]. intros x Ho. destruct (Hx x Ho); [left; exists d; auto|auto].
  - intros j d1 Hj E. rewrite nth_error_set_nth. destruct (Nat.eqb_spec i j) as [->|]; [contradiction|assumption].
Qed.

Lemma bsome hp p q d ls est : nth_error hp p = Some (NProto q d ls) -> exists v, dview hp (OBasic p est) = Some v.
Proof. intros E. cbn. unfold bview. rewrite E. cbn. eauto. Qed.

Lemma mod_dec op ds x : (exists i, modifies op i /\ has_cell ds i x) \/ ~ exists i, modifies op i /\ has_cell ds i x.
Proof.
  assert (D : forall i, has_cell ds i x \/ ~ has_cell ds i x).
  { intros i. unfold has_cell. destruct (nth_error ds i) as [[p e|h]|].
    - destruct (Nat.eq_dec x p) as [->|N]; [left; eexists; split; [reflexivity|reflexivity]|right; intros (d & E & H); injection E as <-; contradiction].
    - right. intros (d & E & H); injection E as <-; contradiction.
    - right. intros (d & E & H). discriminate. }
  destruct op as [n|a|a q d ls|b|a|i b|i T k a|i T k|i]; cbn; try (right; intros (j & F & _); exact F).
  - destruct (D i); [left; eauto|right; intros (j & -> & H1); contradiction].
  - destruct (D i); [left; eauto|right; intros (j & -> & H1); contradiction].
  - destruct (D i); [left; eauto|right; intros (j & -> & H1); contradiction].
Qed.
Lemma classic_touch op ds x : touched op ds x \/ ~ touched op ds x.
Proof.
  assert (D1 : encodes op x \/ ~ encodes op x) by (destruct op; cbn; auto; destruct (Nat.eq_dec x a); auto).
  assert (D2 : edits op x \/ ~ edits op x) by (destruct op; cbn; auto; destruct (Nat.eq_dec x a); auto).
  unfold touched. destruct (mod_dec op ds x); tauto.
Qed.

Section Run.
  Variables (hash : bytes -> bytes) (W : Z) (mayc : bool).
  Notation oexec := (oexec hash W mayc).
  Notation orun := (orun hash W mayc).
  Notation answers := (answers hash W mayc).

  Lemma oexec_shape op st r st' : oinv st -> oexec op st r st' -> exists i0, oshape op st st' i0.
  Proof.
    intros Hi H. pose proof Hi as [V U]. destruct op as [n|a|a q d ls|b|a|i b|i T k a|i T k|i]; cbn [oexec DirObj.oexec] in H.
    - destruct H as [_ ->]. exists O. apply shape_nodes; [assumption|apply frame_new|]. cbn. tauto.
    - destruct H as [_ ->]. exists O. apply shape_nodes; [assumption| |].
      + eapply frame_weak; [|apply frame_encode]. intros x _ <-. left. reflexivity.
      + intros x n E -> _. right. unfold encode. rewrite E. rewrite nth_error_set_nth, Nat.eqb_refl, E. reflexivity.
    - destruct (nth_error (o_nodes st) a) as [[q1 d1|q1 d1 l1]|] eqn:E; destruct H as [_ ->]; try (exists O; apply shape_eq; assumption).
      exists O. apply shape_nodes; [assumption| |cbn; tauto]. eapply frame_weak; [|eapply frame_set; exact E]. intros x _ <-. right; left. reflexivity.
    - destruct newEmptyBasicDirectory as [x|e| |]; destruct H as [_ ->]; try (exists O; apply shape_eq; assumption).
      destruct (new_cell (o_nodes st) (b_prefix x) (b_data x) (b_links x) (proto_prefix b) (b_est x)) as [Vn Fn]. eexists. apply shape_dir; auto.
      + eapply frame_weak; [|exact Fn]. intros y _ Hy; destruct Hy.
      + cbn [dview]. rewrite Vn. cbn. eauto.
      + cbn. intros y ->. lia.
    - destruct (nth_error (o_nodes st) a) as [n|] eqn:E; [|destruct H as [_ ->]; exists O; apply shape_eq; assumption].
      destruct (NewDirectoryFromNode n) as [[b|h]|e| |]; destruct H as [_ ->]; try (exists O; apply shape_eq; assumption).
      + eexists. apply shape_dir; auto; [apply frame_new| |cbn; intros y ->; lia]. eapply bsome. rewrite nth_error_app2, Nat.sub_diag by lia. reflexivity.
      + eexists. apply shape_dir; auto; [apply frame_refl|cbn; eauto|cbn; tauto].
    - destruct (nth_error (o_dirs st) i) as [[p est|h]|] eqn:E; destruct H as [_ ->]; try (exists O; apply shape_eq; assumption).
      + exists O. apply shape_nodes; [assumption| |cbn; tauto]. eapply frame_weak; [|apply frame_prefix]. intros x _ <-. right; right. exists i. split; [reflexivity|]. eexists. split; [exact E|reflexivity].
      + exists i. eapply (shape_upd _ _ _ _ _ _ _ _ Hi); [reflexivity|exact E|apply frame_refl|cbn [dview]; reflexivity|cbn; tauto|cbn; tauto].
    - destruct (nth_error (o_dirs st) i) as [d|] eqn:Ed; [|destruct H as [_ ->]; exists O; apply shape_eq; assumption].
      destruct (nth_error (o_nodes st) a) as [n|] eqn:Ea; [|destruct H as [_ ->]; exists O; apply shape_eq; assumption].
      destruct H as (r0 & d' & hp' & w' & H & _ & ->). destruct (V _ _ Ed) as [v0 Ev0]. destruct (view_kind _ _ _ _ _ (frame_encode a (o_nodes st)) Ev0) as [v Ev].
      destruct (dyn_add hash W mayc T k n d (encode a (o_nodes st)) (o_world st) v r0 Ev) as [A _]. destruct (A _ _ _ H) as (v' & _ & B1 & B2 & B3). exists i.
      pose proof (frame_encode a (o_nodes st)) as Fe.
      assert (El : length (encode a (o_nodes st)) = length (o_nodes st)) by (unfold encode; rewrite Ea; apply set_nth_length).
      eapply (shape_upd _ _ _ _ _ _ _ _ Hi); [reflexivity|exact Ed| |exact B1|rewrite <- El; exact B3|].
      + eapply frame_trans; [eapply frame_weak; [|exact Fe]; intros x _ <-; left; reflexivity|]. eapply frame_weak; [|exact B2]. intros x _ Ho. right; right. exists i. split; [reflexivity|]. exists d. auto.
      + intros x m Ex Hc Hn. cbn in Hc. subst x. destruct B2 as (_ & B2 & _). right. rewrite B2.
        * unfold encode. rewrite Ea in Ex |- *. injection Ex as <-. now rewrite nth_error_set_nth, Nat.eqb_refl, Ea.
        * rewrite El. apply nth_error_Some. congruence.
        * intros Ho. apply (Hn i); [reflexivity|]. exists d. auto.
    - destruct (nth_error (o_dirs st) i) as [d|] eqn:Ed; [|destruct H as [_ ->]; exists O; apply shape_eq; assumption].
      destruct H as (r0 & d' & hp' & w' & H & _ & ->). destruct (V _ _ Ed) as [v Ev].
      destruct (dyn_remove hash mayc T k d (o_nodes st) (o_world st) v r0 Ev) as [A _]. destruct (A _ _ _ H) as (v' & _ & B1 & B2 & B3). exists i.
      eapply (shape_upd _ _ _ _ _ _ _ _ Hi); [reflexivity|exact Ed| |exact B1|exact B3|cbn; tauto].
      eapply frame_weak; [|exact B2]. intros x _ Ho. right; right. exists i. split; [reflexivity|]. exists d. auto.
    - destruct (nth_error (o_dirs st) i) as [[p est|h]|] eqn:Ed; [destruct H as [_ ->]; exists O; apply shape_eq; assumption| |destruct H as [_ ->]; exists O; apply shape_eq; assumption].
      destruct (Node (h_shard h) (o_world st)) as [[n|e| |] w1]; destruct H as [_ ->]; try (exists O; apply shape_same; assumption).
      exists O. apply shape_nodes; [assumption|apply frame_new|]. cbn. tauto.
  Qed.

  Lemma shape_inv op st st' i0 : oinv st -> oshape op st st' i0 -> oinv st'.
  Proof.
    intros [V U] [F O N K S]. split.
    - intros i d E. destruct (Nat.eq_dec i i0) as [->|D]; [exact (proj1 (N _ E))|]. destruct (V _ _ (O _ _ D E)) as [v Ev]. eapply view_kind; eassumption.
    - intros i j di dj x Ei Ej Hi Hj.
      assert (G : forall y dy, nth_error (o_dirs st') y = Some dy -> owns dy x -> y <> i0 -> has_cell (o_dirs st) y x /\ (x < length (o_nodes st))%nat).
      { intros y dy Ey Hy D. pose proof (O _ _ D Ey) as Eo. destruct (V _ _ Eo) as [v Ev]. split; [exists dy; auto|]. eapply view_in; eassumption. }
      assert (G2 : forall y z, has_cell (o_dirs st) y x -> has_cell (o_dirs st) z x -> y = z) by (intros y z (dy & A1 & A2) (dz & B1 & B2); eapply U; eassumption).
      destruct (Nat.eq_dec i i0) as [->|Di]; destruct (Nat.eq_dec j i0) as [->|Dj]; [reflexivity| | |].
      + destruct (G _ _ Ej Hj Dj) as [G1 L]. destruct (proj2 (N _ Ei) x Hi) as [C|C]; [now apply G2|lia].
      + destruct (G _ _ Ei Hi Di) as [G1 L]. destruct (proj2 (N _ Ej) x Hj) as [C|C]; [now apply G2|lia].
      + apply G2; [apply (G _ _ Ei Hi Di)|apply (G _ _ Ej Hj Dj)].
  Qed.
  Lemma run_inv ops : forall st rs st', oinv st -> orun st ops rs st' -> oinv st'.
  Proof.
    induction ops as [|op ops IH]; intros st rs st' Hi H; inversion H as [|? ? ? ? ? ? ? H1 H2]; subst; [assumption|]. destruct (oexec_shape _ _ _ _ Hi H1) as [i0 Hs]. eapply IH; [|eassumption]. eapply shape_inv; eassumption.
  Qed.
  Lemma reach_inv st : oreach hash W mayc st -> oinv st.
  Proof. intros (w & ops & rs & H). eapply run_inv; [|exact H]. split; intros [|i]; discriminate. Qed.

  Lemma answers_cell st i x : oinv st -> answers st i x <-> has_cell (o_dirs st) i x.
  Proof.
    intros [V _]. split.
    - intros (Hn & st' & H). cbn [DirObj.oexec] in H. destruct (nth_error (o_dirs st) i) as [[p est|h]|] eqn:E.
      + destruct H as [H _]. injection H as ->. eexists. split; [exact E|reflexivity].
      + destruct (Node (h_shard h) (o_world st)) as [[n|e| |] w1]; destruct H as [H _]; try discriminate. injection H as ->. exfalso. apply Hn. unfold node_of. apply nth_error_None. lia.
      + destruct H; discriminate.
    - intros (d & E & Ho). destruct (V _ _ E) as [v Ev]. split.
      + pose proof (view_in _ _ _ _ Ev Ho). unfold node_of. now apply nth_error_Some.
      + exists st. cbn [DirObj.oexec]. rewrite E. destruct d as [p est|h]; [|contradiction]. cbn in Ho. subst p. auto.
  Qed.

  (** Which calls change a node. *)
  Lemma node_changes st op r st' a n : oreach hash W mayc st -> oexec op st r st' -> node_of st a = Some n ->
    node_of st' a = Some n \/ (encodes op a /\ node_of st' a = Some (seal n)) \/ edits op a \/ exists i, modifies op i /\ answers st i a.
  Proof.
    intros Hr He En. pose proof (reach_inv _ Hr) as Hi. destruct (oexec_shape _ _ _ _ Hi He) as [i0 [(F1 & F2 & F3) O N K S]].
    assert (La : (a < length (o_nodes st))%nat) by (apply nth_error_Some; unfold node_of in En; congruence).
    destruct (classic_touch op (o_dirs st) a) as [T|T].
    2:{ left. unfold node_of in *. rewrite F2; auto. }
    destruct (mod_dec op (o_dirs st) a) as [(i & M1 & M2)|M]; [right; right; right; exists i; split; [assumption|now apply answers_cell]|].
    destruct T as [T|[T|T]]; [|auto|now destruct M].
    destruct (S a n En T) as [G|G]; [|left; exact G|right; left; auto]. intros i Hm Hc. apply M. eauto.
  Qed.

  Lemma reach_step st op r st' : oreach hash W mayc st -> oexec op st r st' -> oreach hash W mayc st'.
  Proof.
    intros (w & ops & rs & H) He. exists w, (ops ++ [op]), (rs ++ [r]). induction H; [econstructor; [exact He|constructor]|]. cbn [app]. econstructor; [eassumption|]. now apply IHorun.
  Qed.

  (** At most one directory has a node. *)
  Lemma one_owner st i j a : oreach hash W mayc st -> answers st i a -> answers st j a -> i = j.
  Proof.
    intros Hr Hi Hj. pose proof (reach_inv _ Hr) as H. apply (answers_cell _ _ _ H) in Hi. apply (answers_cell _ _ _ H) in Hj. destruct Hi as (d & A & B). destruct Hj as (e & C & D). destruct H as [_ U]. eapply U; eassumption.
  Qed.
  (** A node no directory has, no directory gets. *)
  Lemma unowned_step st op r st' a : oreach hash W mayc st -> oexec op st r st' -> node_of st a <> None -> (forall i, ~ answers st i a) -> forall i, ~ answers st' i a.
  Proof.
    intros Hr He Hn Hu i Ha. pose proof (reach_inv _ Hr) as Hi. destruct (oexec_shape _ _ _ _ Hi He) as [i0 Hs]. pose proof (shape_inv _ _ _ _ Hi Hs) as Hi'. apply (answers_cell _ _ _ Hi') in Ha. destruct Ha as (d & E & Ho). destruct Hs as [F O N K S].
    destruct (Nat.eq_dec i i0) as [->|D].
    - destruct (proj2 (N _ E) a Ho) as [C|C]; [apply (Hu i0); now apply answers_cell|]. unfold node_of in Hn. apply nth_error_Some in Hn. lia.
    - apply (Hu i). apply answers_cell; [assumption|]. exists d. split; [now apply O|assumption].
  Qed.
  Lemma frozen_run ops : forall st rs st' a n, oreach hash W mayc st -> orun st ops rs st' -> node_of st a = Some n -> (forall i, ~ answers st i a) -> (forall op, In op ops -> ~ edits op a) ->
    (node_of st' a = Some n \/ node_of st' a = Some (seal n)) /\ forall i, ~ answers st' i a.
  Proof.
    induction ops as [|op ops IH]; intros st rs st' a n Hr H Hn Hu He; inversion H as [|? ? ? ? ? ? ? H1 H2]; subst; [auto|].
    pose proof (reach_step _ _ _ _ Hr H1) as Hr1.
    assert (Hu1 : forall i, ~ answers st1 i a) by (eapply unowned_step; [exact Hr|exact H1|congruence|exact Hu]).
    assert (He1 : forall op, In op ops -> ~ edits op a) by (intros o Ho; apply He; now right).
    destruct (node_changes _ _ _ _ _ _ Hr H1 Hn) as [G|[[_ G]|[G|(i & _ & G)]]].
    - eapply IH; eassumption.
    - destruct (IH _ _ _ _ _ Hr1 H2 G Hu1 He1) as [K1 K2]. split; [|exact K2]. right. destruct K1 as [K|K]; [exact K|]. now rewrite seal_idem in K.
    - destruct (He op (or_introl eq_refl) G).
    - destruct (Hu i G).
  Qed.
  (** A node that GetNode makes, or that the program makes, belongs to no directory. *)
  Lemma fresh_unowned st op r st' a : oreach hash W mayc st -> oexec op st r st' -> r = Ok (ORef a) -> node_of st a = None -> forall j, ~ answers st' j a.
  Proof.
    intros Hr He -> Hn j Ha. pose proof (reach_inv _ Hr) as Hi. destruct (oexec_shape _ _ _ _ Hi He) as [i0 Hs]. pose proof (shape_inv _ _ _ _ Hi Hs) as Hi'. apply (answers_cell _ _ _ Hi') in Ha. destruct Ha as (d & E & Ho).
    assert (D : o_dirs st' = o_dirs st).
    { destruct op as [n|b|b q x ls|b|b|i b|i T k b|i T k|i]; cbn [DirObj.oexec] in He.
      - now destruct He as [_ ->].
      - destruct He; discriminate.
      - destruct (nth_error (o_nodes st) b) as [[]|]; destruct He; discriminate.
      - destruct newEmptyBasicDirectory; destruct He; discriminate.
      - destruct (nth_error (o_nodes st) b) as [n|]; [|destruct He; discriminate]. destruct (NewDirectoryFromNode n) as [[]|e| |]; destruct He; discriminate.
      - destruct (nth_error (o_dirs st) i) as [[]|]; destruct He; discriminate.
      - destruct (nth_error (o_dirs st) i); [|destruct He; discriminate]. destruct (nth_error (o_nodes st) b); [|destruct He; discriminate]. destruct He as (r0 & d' & hp' & w' & _ & G & _). destruct r0; discriminate.
      - destruct (nth_error (o_dirs st) i); [|destruct He; discriminate]. destruct He as (r0 & d' & hp' & w' & _ & G & _). destruct r0; discriminate.
      - destruct (nth_error (o_dirs st) i) as [[p est|h]|]; [now destruct He as [_ ->]| |destruct He; discriminate]. destruct (Node (h_shard h) (o_world st)) as [[n|e| |] w1]; now destruct He as [_ ->]. }
    rewrite D in E. destruct Hi as [V _]. destruct (V _ _ E) as [v Ev]. pose proof (view_in _ _ _ _ Ev Ho) as L. apply nth_error_None in Hn. lia.
  Qed.
  (** A loaded directory has its own node. *)
  Lemma load_copies st a i st' : oreach hash W mayc st -> oexec (OLoad a) st (Ok (ODir i)) st' -> ~ answers st' i a.
  Proof.
    intros Hr He Ha. pose proof (reach_inv _ Hr) as Hi. destruct (oexec_shape _ _ _ _ Hi He) as [i0 Hs]. pose proof (shape_inv _ _ _ _ Hi Hs) as Hi'. apply (answers_cell _ _ _ Hi') in Ha. destruct Ha as (d & E & Ho). clear Hs Hi'.
    cbn [DirObj.oexec] in He. destruct (nth_error (o_nodes st) a) as [n|] eqn:En; [|destruct He; discriminate]. assert (L : (a < length (o_nodes st))%nat) by (apply nth_error_Some; congruence).
    destruct (NewDirectoryFromNode n) as [[b|h]|e| |]; destruct He as [G He]; try discriminate; injection G as ->; subst st'; cbn [o_dirs] in E; rewrite nth_error_app2, Nat.sub_diag in E by lia; injection E as <-; cbn in Ho; [lia|contradiction].
  Qed.
  (** Other directories keep their contents. *)
  Lemma others_kept st op r st' j v : oreach hash W mayc st -> oexec op st r st' -> ~ modifies op j -> dir_of st j = Some v ->
    dir_of st' j = Some v \/ (exists a, answers st j a /\ encodes op a /\ dir_of st' j = Some (dEncoded v)) \/ exists a, answers st j a /\ edits op a.
  Proof.
    intros Hr He Hm Hv. pose proof (reach_inv _ Hr) as Hi. destruct (oexec_shape _ _ _ _ Hi He) as [i0 Hs]. unfold dir_of in *. destruct (nth_error (o_dirs st) j) as [d|] eqn:E; [|discriminate]. rewrite (sh_kept _ _ _ _ Hs _ _ Hm E).
    destruct d as [p est|h]; [|left; exact Hv]. cbn [dview] in *. unfold bview in *. destruct (nth_error (o_nodes st) p) as [[q x|q x ls]|] eqn:Ep; try discriminate. cbn in Hv. injection Hv as <-.
    assert (Ha : answers st j p) by (apply answers_cell; [assumption|]; eexists; split; [exact E|reflexivity]).
    destruct (node_changes _ _ _ _ _ _ Hr He Ep) as [G|[[G1 G]|[G|(i & G1 & G2)]]].
    - left. unfold node_of in G. now rewrite G.
    - right; left. exists p. split; [assumption|]. split; [assumption|]. unfold node_of in G. now rewrite G.
    - right; right. exists p. auto.
    - pose proof (one_owner _ _ _ _ Hr Ha G2). subst i. contradiction.
  Qed.

  (** Operations do what Directory.v says. *)
  Lemma dir_view st i v : dir_of st i = Some v -> exists d, nth_error (o_dirs st) i = Some d /\ dview (o_nodes st) d = Some v.
  Proof. unfold dir_of. destruct (nth_error (o_dirs st) i) as [d|]; [eauto|discriminate]. Qed.
  Lemma dir_set st hp' ds i (d d' : odir) w' v : nth_error ds i = Some d -> dview hp' d' = Some v -> st = mkObj hp' (set_nth i d' ds) w' -> dir_of st i = Some v.
  Proof. intros E V ->. unfold dir_of. cbn [o_dirs o_nodes]. now rewrite nth_error_set_nth, Nat.eqb_refl, E. Qed.
  Lemma encode_view a hp d v : dview hp d = Some v -> (owns d a /\ dview (encode a hp) d = Some (dEncoded v)) \/ (~ owns d a /\ dview (encode a hp) d = Some v).
  Proof.
    intros V. destruct d as [p est|h]; cbn [dview owns] in *; [|right; auto]. unfold bview in *. destruct (Nat.eq_dec a p) as [->|D].
    - left. split; [reflexivity|]. unfold encode. destruct (nth_error hp p) as [[q x|q x ls]|] eqn:E; try discriminate. cbn in V. injection V as <-. rewrite nth_error_set_nth, Nat.eqb_refl, E. reflexivity.
    - right. split; [assumption|]. unfold encode. destruct (nth_error hp a); [|assumption]. rewrite nth_error_set_nth. destruct (Nat.eqb_spec a p); [contradiction|assumption].
  Qed.
  Lemma add_value st i T k a n v r st' : oreach hash W mayc st -> dir_of st i = Some v -> node_of st a = Some n -> oexec (OAdd i T k a) st r st' ->
    exists v0 r0 v', (v0 = v \/ answers st i a /\ v0 = dEncoded v) /\ dAddChild hash W mayc T k n (v0, o_world st) r0 (v', o_world st') /\ r = rmap (fun _ => OUnit) r0 /\ dir_of st' i = Some v'.
  Proof.
    intros Hr Hv Hn He. pose proof (reach_inv _ Hr) as Hi. destruct (dir_view _ _ _ Hv) as (d & E & V). unfold node_of in Hn. cbn [DirObj.oexec] in He. rewrite E, Hn in He. destruct He as (r0 & d' & hp' & w' & H & -> & Es).
    assert (G : exists v0, (v0 = v \/ answers st i a /\ v0 = dEncoded v) /\ dview (encode a (o_nodes st)) d = Some v0).
    { destruct (encode_view a _ _ _ V) as [[O G]|[O G]]; eexists; (split; [|exact G]); [right; split; [|reflexivity]|left; reflexivity]. apply answers_cell; [assumption|]. exists d. auto. }
    destruct G as (v0 & G1 & G2). destruct (dyn_add hash W mayc T k n d _ (o_world st) v0 r0 G2) as [A _]. destruct (A _ _ _ H) as (v' & B & C & _). exists v0, r0, v'. split; [assumption|]. split; [subst st'; exact B|]. split; [reflexivity|].
    eapply dir_set; [exact E|exact C|exact Es].
  Qed.
  Lemma add_possible st i T k a n v r0 v' w' : oreach hash W mayc st -> dir_of st i = Some v -> node_of st a = Some n -> ~ answers st i a -> dAddChild hash W mayc T k n (v, o_world st) r0 (v', w') ->
    exists st', oexec (OAdd i T k a) st (rmap (fun _ => OUnit) r0) st' /\ dir_of st' i = Some v' /\ o_world st' = w'.
  Proof.
    intros Hr Hv Hn Ha H. pose proof (reach_inv _ Hr) as Hi. destruct (dir_view _ _ _ Hv) as (d & E & V). unfold node_of in Hn.
    assert (G : dview (encode a (o_nodes st)) d = Some v).
    { destruct (encode_view a _ _ _ V) as [[O _]|[_ G]]; [|exact G]. destruct Ha. apply answers_cell; [assumption|]. exists d. auto. }
    destruct (dyn_add hash W mayc T k n d _ (o_world st) v r0 G) as [_ A]. destruct (A _ _ H) as (d' & hp' & B & C & _). exists (mkObj hp' (set_nth i d' (o_dirs st)) w'). split.
    - cbn [DirObj.oexec]. rewrite E, Hn. exists r0, d', hp', w'. auto.
    - split; [|reflexivity]. eapply dir_set; [exact E|exact C|reflexivity].
  Qed.
  Lemma remove_value st i T k v r st' : oreach hash W mayc st -> dir_of st i = Some v -> oexec (ORemove i T k) st r st' ->
    exists r0 v', dRemoveChild hash mayc T k (v, o_world st) r0 (v', o_world st') /\ r = rmap (fun _ => OUnit) r0 /\ dir_of st' i = Some v'.
  Proof.
    intros Hr Hv He. destruct (dir_view _ _ _ Hv) as (d & E & V). cbn [DirObj.oexec] in He. rewrite E in He. destruct He as (r0 & d' & hp' & w' & H & -> & Es).
    destruct (dyn_remove hash mayc T k d _ (o_world st) v r0 V) as [A _]. destruct (A _ _ _ H) as (v' & B & C & _). exists r0, v'. split; [subst st'; exact B|]. split; [reflexivity|]. eapply dir_set; [exact E|exact C|exact Es].
  Qed.
  Lemma remove_possible st i T k v r0 v' w' : oreach hash W mayc st -> dir_of st i = Some v -> dRemoveChild hash mayc T k (v, o_world st) r0 (v', w') ->
    exists st', oexec (ORemove i T k) st (rmap (fun _ => OUnit) r0) st' /\ dir_of st' i = Some v' /\ o_world st' = w'.
  Proof.
    intros Hr Hv H. destruct (dir_view _ _ _ Hv) as (d & E & V). destruct (dyn_remove hash mayc T k d _ (o_world st) v r0 V) as [_ A]. destruct (A _ _ H) as (d' & hp' & B & C & _). exists (mkObj hp' (set_nth i d' (o_dirs st)) w'). split.
    - cbn [DirObj.oexec]. rewrite E. exists r0, d', hp', w'. auto.
    - split; [|reflexivity]. eapply dir_set; [exact E|exact C|reflexivity].
  Qed.
  Lemma get_value st i v r st' : oreach hash W mayc st -> dir_of st i = Some v -> oexec (OGet i) st r st' ->
    exists r0, dGetNode (v, o_world st) = (r0, (v, o_world st')) /\ dir_of st' i = Some v /\
      match r0 with Ok n => exists a, r = Ok (ORef a) /\ node_of st' a = Some n | Err e => r = Err e | Panic => r = Panic | Fuel => r = Fuel end.
  Proof.
    intros Hr Hv He. destruct (dir_view _ _ _ Hv) as (d & E & V). cbn [DirObj.oexec] in He. rewrite E in He. destruct d as [p est|h]; cbn [dview] in V.
    - destruct He as [-> ->]. destruct (bview (o_nodes st) p est) as [b|] eqn:Eb; [|discriminate]. injection V as <-. eexists. split; [reflexivity|]. split; [assumption|]. exists p. split; [reflexivity|]. exact (proj1 (bview_at _ _ _ _ Eb)).
    - injection V as <-. cbn [dGetNode]. destruct (Node (h_shard h) (o_world st)) as [[n|e| |] w1]; destruct He as [-> ->]; eexists; (split; [reflexivity|]); (split; [unfold dir_of; cbn [o_dirs]; rewrite E; reflexivity|]); try reflexivity.
      eexists. split; [reflexivity|]. unfold node_of. cbn [o_nodes]. now rewrite nth_error_app2, Nat.sub_diag by lia.
  Qed.
  Lemma builder_value st i b v r st' : oreach hash W mayc st -> dir_of st i = Some v -> oexec (OBuilder i b) st r st' -> r = Ok OUnit /\ dir_of st' i = Some (dSetCidBuilder b v) /\ o_world st' = o_world st.
  Proof.
    intros Hr Hv He. destruct (dir_view _ _ _ Hv) as (d & E & V). cbn [DirObj.oexec] in He. rewrite E in He. destruct d as [p est|h]; cbn [dview] in V; destruct He as [-> ->]; (split; [reflexivity|]); (split; [|reflexivity]).
    - unfold dir_of. cbn [o_dirs o_nodes]. rewrite E. cbn [dview]. destruct (bview (o_nodes st) p est) as [x|] eqn:Eb; [|discriminate]. injection V as <-. destruct (bview_at _ _ _ _ Eb) as [E1 E2]. unfold assign_prefix. rewrite E1. erewrite bview_set by exact E1. unfold dSetCidBuilder, bSetCidBuilder. now rewrite E2.
    - injection V as <-. eapply dir_set; [exact E| |reflexivity]. reflexivity.
  Qed.
  Lemma new_value st b r st' : oexec (ONew b) st r st' -> exists i v, NewDirectory b = Ok v /\ r = Ok (ODir i) /\ dir_of st i = None /\ dir_of st' i = Some v /\ o_world st' = o_world st.
  Proof.
    cbn [DirObj.oexec]. unfold NewDirectory. destruct newEmptyBasicDirectory as [x|e| |] eqn:En; [|exfalso; vm_compute in En; discriminate En..].
    intros [-> ->]. eexists _, _. split; [reflexivity|]. split; [reflexivity|]. unfold dir_of. cbn [o_dirs o_nodes o_world]. split; [|split; [|reflexivity]].
    - now rewrite (proj2 (nth_error_None _ _) (le_n _)).
    - rewrite nth_error_app2, Nat.sub_diag by lia. cbn [nth_error dview]. destruct (new_cell (o_nodes st) (b_prefix x) (b_data x) (b_links x) (proto_prefix b) (b_est x)) as [Vn _]. rewrite Vn. reflexivity.
  Qed.
  Lemma load_value st a n r st' : node_of st a = Some n -> oexec (OLoad a) st r st' ->
    match NewDirectoryFromNode n with Ok v => exists i, r = Ok (ODir i) /\ dir_of st i = None /\ dir_of st' i = Some v /\ o_world st' = o_world st | Err e => r = Err e /\ st' = st | Panic => r = Panic | Fuel => r = Fuel end.
  Proof.
    intros Hn. cbn [DirObj.oexec]. unfold node_of in Hn. rewrite Hn. destruct (NewDirectoryFromNode n) as [[x|h]|e| |]; intros [-> ->]; auto; exists (length (o_dirs st)); (split; [reflexivity|]); unfold dir_of; cbn [o_dirs o_nodes o_world]; (split; [now rewrite (proj2 (nth_error_None _ _) (le_n _))|]); (split; [|reflexivity]); rewrite nth_error_app2, Nat.sub_diag by lia; cbn [nth_error dview].
    - unfold bview. rewrite nth_error_app2, Nat.sub_diag by lia. destruct x. reflexivity.
    - reflexivity.
  Qed.

  (** A conversion to a sharded directory leaves all nodes as they are. *)
  Lemma left_alone st op r st' i h a n : oreach hash W mayc st -> oexec op st r st' -> modifies op i -> dir_of st' i = Some (DHamt h) -> node_of st a = Some n ->
    node_of st' a = Some n \/ (encodes op a /\ node_of st' a = Some (seal n)).
  Proof.
    intros Hr He Hm Hd Hn. destruct (node_changes _ _ _ _ _ _ Hr He Hn) as [G|[G|[G|(j & G1 & G2)]]]; [auto|auto| |].
    - exfalso. destruct op; cbn in *; contradiction.
    - assert (j = i) as -> by (destruct op; cbn in *; try contradiction; congruence). pose proof (reach_inv _ Hr) as Hi. apply (answers_cell _ _ _ Hi) in G2. destruct G2 as (d & E & Ho). destruct d as [p est|h0]; [|contradiction]. cbn in Ho. subst p.
      unfold node_of in *. destruct op as [m|c|c q x ls|b|c|j b|j T k c|j T k|j]; cbn in Hm; try contradiction; subst j; cbn [DirObj.oexec] in He; rewrite E in He.
      + destruct He as [_ ->]. unfold dir_of in Hd. cbn [o_dirs o_nodes] in Hd. rewrite E in Hd. cbn [dview] in Hd. destruct (bview _ _ _); discriminate.
      + destruct (nth_error (o_nodes st) c) as [m|] eqn:Ec; [|destruct He as [_ ->]; auto].
        destruct He as (r0 & d' & hp' & w' & H & _ & ->). unfold dir_of in Hd. cbn [o_dirs o_nodes] in *. rewrite nth_error_set_nth, Nat.eqb_refl, E in Hd.
        assert (Eh : hp' = encode c (o_nodes st)).
        { cbn [oDynAdd] in H. assert (Hb : forall x e, d' = OBasic x e -> False) by (intros x e ->; cbn [dview] in Hd; destruct (bview _ _ _); discriminate).
          destruct (bview (encode c (o_nodes st)) a est) as [b|]; [|destruct H as [_ H]; injection H; congruence].
          destruct (needsToSwitchToHAMTDir T k (Some m) b).
          - destruct (switchToSharding hash W (o_world st) b) as [h1|e| |]; [|destruct H as [_ H]; injection H; congruence..]. destruct (hAddChild hash k m (h1, o_world st)) as [[u|e| |] [h2 w1]]; destruct H as [_ H]; injection H; congruence.
          - destruct (oAddChild k m a est (encode c (o_nodes st))) as [r1 [e1 h1]]. destruct H as [_ H]. injection H as -> _ _. destruct (Hb _ _ eq_refl). }
        subst hp'. unfold encode. rewrite Ec. rewrite nth_error_set_nth. destruct (Nat.eqb_spec c a) as [->|D]; [|left; exact Hn]. rewrite Ec in Hn. injection Hn as ->. right. split; [reflexivity|]. now rewrite Ec.
      + exfalso. destruct He as (r0 & d' & hp' & w' & H & _ & ->). unfold dir_of in Hd. cbn [o_dirs o_nodes] in *. rewrite nth_error_set_nth, Nat.eqb_refl, E in Hd.
        cbn [oDynRemove] in H. destruct (oRemoveChild k a est (o_nodes st)) as [r1 [e1 h1]]. destruct H as [_ H]. injection H as -> -> _. cbn [dview] in Hd. destruct (bview _ _ _); discriminate.
  Qed.
End Run.
