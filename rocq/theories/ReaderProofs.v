(** Lemmas about the walker and the reader. *)
From Verif Require Import Base Pb PbProofs FSNode FSNodeProofs Dag DagProofs SpecFile Reader SpecReader.

(** ** Bytes of a DAG *)

Section NodeInd.
  Variable P : node -> Prop.
  Hypothesis Hn : forall n, (forall l, In l (node_links n) -> P (lto l)) -> P n.
  Lemma node_ind' : forall n, P n.
  Proof.
    fix IH 1. intros [p d|p d ls]; apply Hn; cbn.
    - intros l [].
    - induction ls as [|l ls IHl]; [intros l []|]. intros m [<-|Hm]; [apply IH|exact (IHl m Hm)].
  Qed.
End NodeInd.

Lemma leaf_bytes_links n d : leaf_bytes n d -> node_links n = [].
Proof. intros []; reflexivity. Qed.

Lemma leaf_bytes_read n d : leaf_bytes n d <-> node_links n = [] /\ ReadUnixFSNodeData n = Ok d.
Proof.
  split.
  - intros [p d'|p b fs Hd Ht]; cbn; [auto|]. rewrite Hd. split; [reflexivity|].
    destruct Ht as [-> | ->]; reflexivity.
  - intros [Hl H]. destruct n as [p d'|p b ls]; cbn in *.
    + injection H as <-. constructor.
    + subst ls. destruct (FSNodeFromBytes b) as [fs| | |] eqn:E; try discriminate.
      destruct ((getType fs =? TFile) || (getType fs =? TRaw)) eqn:Et; [|discriminate]. injection H as <-.
      constructor; [assumption|]. apply orb_true_iff in Et as [Et|Et]; apply Z.eqb_eq in Et; auto.
Qed.

Lemma leaf_bytes_det n d d' : leaf_bytes n d -> leaf_bytes n d' -> d = d'.
Proof. rewrite !leaf_bytes_read. intros [_ H] [_ H']. congruence. Qed.

Lemma tree_bytes_det n : forall b b', tree_bytes n b -> tree_bytes n b' -> b = b'.
Proof.
  induction n as [n IH] using node_ind'. intros b b' H H'.
  destruct H as [n d H|n bs Hl HF]; destruct H' as [n d' H'|n bs' Hl' HF'].
  - eapply leaf_bytes_det; eassumption.
  - apply leaf_bytes_links in H. congruence.
  - apply leaf_bytes_links in H'. congruence.
  - f_equal. clear Hl Hl'. revert bs bs' HF HF' IH. generalize (node_links n). intros ls.
    induction ls as [|l ls IHl]; cbn; intros bs bs' HF HF' IH; inversion HF; inversion HF'; subst; [reflexivity|].
    f_equal; [eapply IH; eauto|]. apply IHl; auto. intros; eapply IH; eauto.
Qed.

Lemma concat_concat (css : list (list bytes)) : concat (concat css) = concat (map (@concat byte) css).
Proof. induction css as [|c css IH]; [reflexivity|]. cbn. rewrite concat_app, IH. reflexivity. Qed.

Lemma file_dag_tree : forall n cs, file_dag n cs -> tree_bytes n (concat cs).
Proof.
  intros n. induction n as [n IH] using node_ind'. intros cs H.
  destruct H as [p d|p b fs Hd Ht Hb Hs|p b fs ls css Hls Hu Hd Ht Hda HF Hb Hs].
  - cbn. rewrite app_nil_r. apply tb_leaf. constructor.
  - cbn. rewrite app_nil_r. apply tb_leaf. now constructor.
  - rewrite concat_concat. apply tb_node; [exact Hls|]. cbn [node_links] in *.
    clear Hls Hu Hb Hs. revert css HF IH. induction ls as [|l ls IHl]; intros css HF IH; inversion HF; subst; cbn; constructor.
    + apply IH; [now left|assumption].
    + apply IHl; [assumption|]. intros; apply IH; [now right|assumption].
Qed.

Lemma skipn_skipn' {A} (l : list A) i j : skipn i (skipn j l) = skipn (j + i) l.
Proof. revert l. induction j as [|j IH]; intros l; [reflexivity|]. destruct l; [now rewrite !skipn_nil|]. apply IH. Qed.

(** ** The walker *)

Definition sumw (ls : list link) : nat := fold_right (fun l a => weight (lto l) + a)%nat 0%nat ls.
Lemma weight_eq n : weight n = S (S (sumw (node_links n))).
Proof. destruct n; reflexivity. Qed.
Lemma sumw_app a b : sumw (a ++ b) = (sumw a + sumw b)%nat.
Proof. unfold sumw. induction a; cbn; lia. Qed.

Lemma skipn_nth {A} (l : list A) i x : nth_error l i = Some x -> skipn i l = x :: skipn (S i) l.
Proof. revert i. induction l as [|y l IH]; intros [|i] H; cbn in *; try discriminate; [congruence|]. now apply IH. Qed.

(** Work left below the frames of a stack. *)
Fixpoint fwork (st : stack) : nat :=
  match st with
  | [] => 0
  | (n, i) :: r => S (sumw (skipn (S i) (node_links n)) + fwork r)
  end.
Definition swork (root : node) (st : stack) : nat :=
  match st with
  | [] => weight root
  | (n, i) :: r => S (sumw (skipn i (node_links n)) + fwork r)
  end.

Lemma fetch_spec w root st :
  match fetch_child w root st with
  | DNoChild => exists n i r, st = (n, i) :: r /\ skipn i (node_links n) = []
  | DNode c => st = [] /\ c = root \/ exists n i r l, st = (n, i) :: r /\ nth_error (node_links n) i = Some l /\ c = lto l
  | DErr e => e = EFetch /\ exists n i r l, st = (n, i) :: r /\ nth_error (node_links n) i = Some l /\ dserv_get w (lto l) <> Ok (lto l)
  | DPanic => False | DFuel => False
  end.
Proof.
  destruct st as [|[n i] r]; cbn; [auto|]. destruct (nth_error (node_links n) i) as [l|] eqn:E.
  - unfold dserv_get. destruct (stored w (lto l) && w_getok w (lto l)) eqn:Eg.
    + right. eexists _, _, _, _. split; [reflexivity|]. split; [exact E|reflexivity].
    + split; [reflexivity|]. eexists _, _, _, _. split; [reflexivity|]. split; [exact E|]. unfold dserv_get. rewrite Eg. discriminate.
  - eexists _, _, _. split; [reflexivity|]. apply nth_error_None in E. now apply skipn_all2.
Qed.

(** Leaves of the frames. *)
Inductive frames : stack -> bytes -> Prop :=
| frames_nil : frames [] []
| frames_cons n i r bs b : (i < length (node_links n))%nat ->
    Forall2 tree_bytes (map lto (skipn (S i) (node_links n))) bs -> frames r b ->
    frames ((n, i) :: r) (concat bs ++ b).
(** Bytes still to be delivered by a walker. *)
Inductive rest (root : node) : stack -> bytes -> Prop :=
| rest_nil b : tree_bytes root b -> rest root [] b
| rest_cons n i r bs b : (i <= length (node_links n))%nat ->
    Forall2 tree_bytes (map lto (skipn i (node_links n))) bs -> frames r b ->
    rest root ((n, i) :: r) (concat bs ++ b).

Lemma frames_inv n i r b : frames ((n, i) :: r) b -> exists bs b0, b = concat bs ++ b0 /\ (i < length (node_links n))%nat /\
  Forall2 tree_bytes (map lto (skipn (S i) (node_links n))) bs /\ frames r b0.
Proof. intros H. inversion H; subst. eexists _, _. eauto. Qed.
Lemma rest_inv root n i r b : rest root ((n, i) :: r) b -> exists bs b0, b = concat bs ++ b0 /\ (i <= length (node_links n))%nat /\
  Forall2 tree_bytes (map lto (skipn i (node_links n))) bs /\ frames r b0.
Proof. intros H. inversion H; subst. eexists _, _. eauto. Qed.

Lemma next_up_spec root st b : st <> [] -> (exists n i r, st = (n, i) :: r /\ skipn i (node_links n) = []) -> rest root st b ->
  match next_up st with
  | (true, st') => rest root st' b /\ (swork root st' < swork root st)%nat /\ st' <> []
  | (false, st') => b = [] /\ rest root st' b
  end.
Proof.
  assert (G : forall r b, r <> [] -> frames r b ->
    match next_up r with
    | (true, st') => rest root st' b /\ (swork root st' <= fwork r)%nat /\ st' <> []
    | (false, st') => b = [] /\ rest root st' b
    end).
  { clear. induction r as [|[n i] r IH]; intros b Hne HF; [congruence|]. cbn [next_up]. apply frames_inv in HF as (bs & b0 & -> & H2 & H3 & H4).
    unfold next_index. replace (S i <=? length (node_links n))%nat with true by (symmetry; apply Nat.leb_le; lia).
    destruct (S i =? length (node_links n))%nat eqn:E.
    - apply Nat.eqb_eq in E. rewrite skipn_all2 in H3 by lia. inversion H3; subst.
      cbn [concat app]. destruct r as [|f r].
      + inversion H4; subst. split; [reflexivity|]. change (@nil byte) with (concat (@nil bytes) ++ []). constructor; [lia| |constructor].
        rewrite skipn_all2 by lia. constructor.
      + specialize (IH b0 ltac:(discriminate) H4). destruct (next_up (f :: r)) as [[|] st']; [|exact IH].
        destruct IH as (X & Y & Z). split; [exact X|]. split; [|exact Z]. cbn [fwork] in *. destruct f. lia.
    - apply Nat.eqb_neq in E. split; [|split; [|discriminate]].
      + constructor; [lia|assumption|assumption].
      + cbn [swork fwork]. lia. }
  intros Hne (n & i & r & -> & Hs) HR. apply rest_inv in HR as (bs & b0 & -> & H2 & H3 & H4). cbn [next_up].
  rewrite Hs in H3. inversion H3; subst. cbn [concat app].
  assert (Ei : i = length (node_links n)).
  { apply Nat.le_antisymm; [assumption|]. destruct (le_lt_dec (length (node_links n)) i); [assumption|].
    apply (f_equal (@length _)) in Hs. rewrite skipn_length in Hs. cbn in Hs. lia. }
  unfold next_index. replace (S i <=? length (node_links n))%nat with false by (symmetry; apply Nat.leb_gt; lia).
  rewrite (proj2 (Nat.eqb_eq _ _) Ei). destruct r as [|f r].
  - inversion H4; subst. split; [reflexivity|]. change (@nil byte) with (concat (@nil bytes) ++ []). constructor; [lia| |constructor].
    rewrite Hs. constructor.
  - pose proof (G (f :: r) b0 ltac:(discriminate) H4) as X. destruct (next_up (f :: r)) as [[|] st']; [|exact X].
    destruct X as (X & Y & Z). split; [exact X|]. split; [|exact Z]. cbn [swork]. lia.
Qed.

(** Moving down into a node. *)
Lemma rest_down w root st b c : fetch_child w root st = DNode c -> rest root st b ->
  exists d br, tree_bytes c d /\ b = d ++ br /\ frames st br /\
    (swork root st = weight c + fwork st)%nat /\
    (st = [] /\ c = root \/ exists n i r l, st = (n, i) :: r /\ nth_error (node_links n) i = Some l /\ c = lto l).
Proof.
  intros Hf HR. pose proof (fetch_spec w root st) as S. rewrite Hf in S.
  destruct S as [(-> & ->)|(n & i & r & l & -> & Hn & ->)].
  - inversion HR; subst. exists b, []. rewrite app_nil_r. split; [assumption|]. split; [reflexivity|]. split; [constructor|]. split; [cbn; lia|auto].
  - apply rest_inv in HR as (bs & b0 & -> & H2 & H3 & H4). rewrite (skipn_nth _ _ _ Hn) in H3. cbn [map] in H3. inversion H3; subst. cbn [concat].
    exists y, (concat l' ++ b0). split; [assumption|]. split; [now rewrite app_assoc|]. split.
    + constructor; [|assumption|assumption]. apply nth_error_Some. congruence.
    + split; [|right; eexists _, _, _, _; eauto]. cbn [swork fwork]. rewrite (skipn_nth _ _ _ Hn). cbn [sumw fold_right]. fold (sumw (skipn (S i) (node_links n))).
      lia.
Qed.

Lemma rest_enter root c d st br : tree_bytes c d -> node_links c <> [] -> frames st br -> rest root ((c, O) :: st) (d ++ br).
Proof.
  intros Ht Hl HF. inversion Ht; subst.
  - apply leaf_bytes_links in H. congruence.
  - constructor; [lia|exact H0|assumption].
Qed.
Lemma rest_leaf root c st br : node_links c = [] -> frames st br -> rest root ((c, O) :: st) br.
Proof.
  intros Hl HF. change br with (concat (@nil bytes) ++ br). constructor; [lia| |assumption]. rewrite Hl. constructor.
Qed.

(** The frames are a path from the root. *)
Inductive chain (root : node) : stack -> Prop :=
| chain_nil : chain root []
| chain_one i : chain root [(root, i)]
| chain_cons n i r l j : chain root ((n, i) :: r) -> nth_error (node_links n) i = Some l -> chain root ((lto l, j) :: (n, i) :: r).

Lemma reach_trans a b c : reach a b -> reach b c -> reach a c.
Proof. intros H. induction H; intros; [assumption|]. econstructor; eauto. Qed.
Lemma reach_child n l : In l (node_links n) -> reach n (lto l).
Proof. intros H. econstructor; [exact H|constructor]. Qed.

Lemma chain_inside root st : chain root st -> Forall (fun f => reach root (fst f)) st.
Proof.
  induction 1 as [| |n i r l j H IH Hn]; constructor; auto; [constructor|]. cbn. inversion IH; subst.
  eapply reach_trans; [eassumption|]. apply reach_child. eapply nth_error_In; eassumption.
Qed.
Lemma sumw_skipn k ls : (sumw (skipn k ls) <= sumw ls)%nat.
Proof. revert k. induction ls as [|l ls IH]; intros [|k]; cbn [skipn]; auto. specialize (IH k).
  change (sumw (l :: ls)) with (weight (lto l) + sumw ls)%nat. lia. Qed.

Lemma chain_work root st : chain root st -> (swork root st <= weight root)%nat.
Proof.
  induction 1 as [|i|n i r l j H IH Hn]; cbn [swork fwork] in *; [lia| |].
  - rewrite weight_eq. pose proof (sumw_skipn i (node_links root)). lia.
  - rewrite (skipn_nth _ _ _ Hn) in IH. cbn [sumw fold_right] in IH. fold (sumw (skipn (S i) (node_links n))) in IH. rewrite weight_eq in IH.
    pose proof (sumw_skipn j (node_links (lto l))). lia.
Qed.

Lemma chain_down w root st c : chain root st -> fetch_child w root st = DNode c -> forall j, chain root ((c, j) :: st).
Proof.
  intros H Hf j. pose proof (fetch_spec w root st) as S. rewrite Hf in S.
  destruct S as [(-> & ->)|(n & i & r & l & -> & Hn & ->)]; now constructor.
Qed.
Lemma chain_index root n i r j : chain root ((n, i) :: r) -> chain root ((n, j) :: r).
Proof. intros H. inversion H; subst; now constructor. Qed.
Lemma chain_tail root f r : chain root (f :: r) -> chain root r.
Proof. intros H. inversion H; subst; now try constructor. Qed.
Lemma chain_next root st x st' : chain root st -> next_up st = (x, st') -> chain root st'.
Proof.
  revert st'. induction st as [|[n i] r IH]; intros st' H E; cbn in E; [injection E as <- <-; constructor|].
  destruct (next_index n i =? length (node_links n))%nat.
  - destruct r; [injection E as <- <-; eapply chain_index; eassumption|]. eapply IH; [eapply chain_tail; eassumption|eassumption].
  - injection E as <- <-. eapply chain_index; eassumption.
Qed.
Lemma chain_fetch_ok w root st e : below_available w root -> chain root st -> fetch_child w root st <> DErr e.
Proof.
  intros Hb H E. apply chain_inside in H. pose proof (fetch_spec w root st) as S. rewrite E in S.
  destruct S as (_ & n & i & r & l & -> & Hn & Hg). inversion H; subst. cbn in H2. apply Hg.
  apply nth_error_In in Hn. clear E H H3 Hg.
  assert (G : forall a n, reach a n -> forall l, In l (node_links n) -> exists l0, In l0 (node_links a) /\ reach (lto l0) (lto l)).
  { clear. intros a n H. induction H as [n|n l0 m H0 H IH]; intros l Hl.
    - exists l. split; [assumption|constructor].
    - destruct (IH l Hl) as (l1 & Hl1 & Hr). exists l0. split; [assumption|]. econstructor; eassumption. }
  destruct (G _ _ H2 l Hn) as (l0 & H0 & H1). exact (Hb l0 (lto l) H0 H1).
Qed.

(** ** Reading *)

Lemma br_rest_zero d : br_rest (d, 0) = d.
Proof. unfold br_rest. cbn. destruct (zlen d <=? 0) eqn:E; [|reflexivity]. destruct d; [reflexivity|]. unfold zlen in E. cbn in E. lia. Qed.

Definition obr (o : option breader) : bytes := match o with Some b => br_rest b | None => [] end.

Lemma br_rest_advance d i k : 0 <= i -> br_rest (d, i + zlen (firstn k (br_rest (d, i)))) = skipn k (br_rest (d, i)).
Proof.
  intros Hi. unfold br_rest. cbn [fst snd]. destruct (zlen d <=? i) eqn:E.
  - rewrite firstn_nil, skipn_nil. change (zlen (@nil byte)) with 0. rewrite Z.add_0_r, E. reflexivity.
  - unfold zdrop, zlen. rewrite firstn_length, skipn_length.
    destruct (Z.of_nat (length d) <=? i + Z.of_nat (Nat.min k (length d - Z.to_nat i))) eqn:E2.
    + symmetry. apply skipn_all2. rewrite skipn_length. unfold zlen in E. lia.
    + rewrite skipn_skipn'. f_equal. unfold zlen in E. lia.
Qed.

Lemma take_buffer_spec k b : 0 <= snd b ->
  fst (take_buffer k b) = firstn k (br_rest b) /\ obr (snd (take_buffer k b)) = skipn k (br_rest b) /\
  (forall b', snd (take_buffer k b) = Some b' -> 0 <= snd b').
Proof.
  intros Hb. destruct b as [d i]. unfold take_buffer. cbn [fst snd] in *.
  split; [reflexivity|]. rewrite br_rest_advance by assumption. split.
  - destruct (zlen (skipn k (br_rest (d, i))) =? 0) eqn:E; cbn.
    + symmetry. destruct (skipn k (br_rest (d, i))); [reflexivity|]. unfold zlen in E. cbn in E. lia.
    + now apply br_rest_advance.
  - intros b' H. destruct (zlen (skipn k (br_rest (d, i))) =? 0); [discriminate|]. injection H as <-. cbn. unfold zlen. lia.
Qed.

Definition data_ok (o : option breader) : Prop := forall b, o = Some b -> 0 <= snd b.

Lemma read_buffer_spec b s : 0 <= snd b ->
  let s' := read_buffer b s in
  rs_out s' = rs_out s ++ firstn (rs_room s) (br_rest b) /\
  rs_room s' = (rs_room s - length (br_rest b))%nat /\
  rs_off s' = rs_off s + zlen (firstn (rs_room s) (br_rest b)) /\
  obr (rs_data s') = skipn (rs_room s) (br_rest b) /\ data_ok (rs_data s').
Proof.
  intros Hb. unfold read_buffer. pose proof (take_buffer_spec (rs_room s) b Hb) as (H1 & H2 & H3).
  destruct (take_buffer (rs_room s) b) as [m d]. cbn in *. subst m. repeat split; auto.
  rewrite firstn_length. lia.
Qed.

(** Result of an iteration of CtxReadFull from a position with bytes [b] left. *)
Lemma iterate_read w root fuel : forall st b s, (swork root st < fuel)%nat -> rest root st b -> chain root st ->
  rs_data s = None ->
  match iterate w root read_visit fuel st s with
  | (x, st', s') => exists m b', b = m ++ b' /\ rs_out s' = rs_out s ++ m /\ rs_off s' = rs_off s + zlen m /\
      (exists b2, rest root st' b2 /\ b' = obr (rs_data s') ++ b2) /\ chain root st' /\ data_ok (rs_data s') /\
      match x with
      | Ok true => length m = rs_room s
      | Ok false => b' = [] /\ (length m < rs_room s \/ m = [] /\ rs_room s = 0)%nat
      | Err e => e = EFetch /\ ~ below_available w root /\ (length m < rs_room s \/ m = [] /\ rs_room s = 0)%nat /\ fetch_child w root st' = DErr EFetch /\ rs_data s' = None
      | Panic => False
      | Fuel => False
      end
  end.
Proof.
  induction fuel as [|f IH]; intros st b s Hw HR HI Hd; [lia|]. cbn [iterate].
  destruct (fetch_child w root st) as [|e|c| |] eqn:Ef.
  - (* no child *)
    pose proof (fetch_spec w root st) as S. rewrite Ef in S.
    assert (Hne : st <> []) by (destruct S as (n & i & r & -> & _); discriminate).
    pose proof (next_up_spec root st b Hne S HR) as N. destruct (next_up st) as [[|] st'] eqn:En.
    + destruct N as (N1 & N2 & N3). apply IH; auto; [lia|]. eapply chain_next; eassumption.
    + destruct N as [-> N]. exists [], []. rewrite (app_nil_r (rs_out s)), Hd. change (zlen (@nil byte)) with 0.
      split; [reflexivity|]. split; [reflexivity|]. split; [lia|]. split; [exists []; auto|].
      split; [eapply chain_next; eassumption|]. split; [intros ? ?; discriminate|]. split; [reflexivity|]. destruct (rs_room s); [right; auto|left; cbn; lia].
  - (* fetch error *)
    pose proof (fetch_spec w root st) as S. rewrite Ef in S. destruct S as [-> _].
    exists [], b. rewrite (app_nil_r (rs_out s)), Hd. change (zlen (@nil byte)) with 0.
    split; [reflexivity|]. split; [reflexivity|]. split; [lia|]. split; [exists b; auto|].
    split; [assumption|]. split; [intros ? ?; discriminate|]. split; [reflexivity|].
    split; [intros Hb; exact (chain_fetch_ok w root st _ Hb HI Ef)|]. split; [destruct (rs_room s); [right; auto|left; cbn; lia]|]. auto.
  - (* a node *)
    destruct (rest_down w root st b c Ef HR) as (d & br & Ht & -> & HF & Hsw & _).
    pose proof (chain_down _ _ _ _ HI Ef O) as HI'. rewrite weight_eq in Hsw.
    unfold read_visit at 1. destruct (node_links c) as [|l0 ls0] eqn:El.
    + assert (HL : leaf_bytes c d) by (inversion Ht; subst; [assumption|congruence]).
      apply leaf_bytes_read in HL as [_ HL]. rewrite HL.
      pose proof (read_buffer_spec (d, 0) s ltac:(cbn; lia)) as (B1 & B2 & B3 & B4 & B5).
      rewrite br_rest_zero in *. cbv zeta. destruct (rs_room (read_buffer (d, 0%Z) s) =? 0)%nat eqn:E0.
      * apply Nat.eqb_eq in E0. exists (firstn (rs_room s) d), (skipn (rs_room s) d ++ br).
        rewrite app_assoc, firstn_skipn. split; [reflexivity|]. split; [exact B1|]. split; [exact B3|].
        split; [exists br; split; [now apply rest_leaf|now rewrite B4]|]. split; [assumption|]. split; [assumption|].
        rewrite firstn_length. lia.
      * apply Nat.eqb_neq in E0.
        assert (Hdn : rs_data (read_buffer (d, 0) s) = None).
        { unfold read_buffer, take_buffer. rewrite br_rest_zero. cbn [fst snd].
          replace (br_rest (d, 0 + zlen (firstn (rs_room s) d))) with (@nil byte).
          - reflexivity.
          - pose proof (br_rest_advance d 0 (rs_room s) ltac:(lia)) as A. rewrite br_rest_zero in A. rewrite A. symmetry. apply skipn_all2. lia. }
        specialize (IH ((c, O) :: st) br (read_buffer (d, 0) s)).
        destruct (iterate w root read_visit f ((c, O) :: st) (read_buffer (d, 0) s)) as [[x st'] s'].
        destruct IH as (m & b' & -> & I2 & I3 & I4 & I5 & I6 & I7).
        { cbn [swork]. rewrite skipn_O, El. cbn [sumw fold_right]. lia. }
        { now apply rest_leaf. }
        { assumption. }
        { assumption. }
        rewrite B1 in I2. rewrite B3 in I3. rewrite firstn_all2 in I2 by lia. rewrite firstn_all2 in I3 by lia.
        exists (d ++ m), b'. split; [now rewrite app_assoc|]. split; [rewrite I2; now rewrite app_assoc|].
        split; [rewrite I3, zlen_app; lia|]. split; [exact I4|]. split; [exact I5|]. split; [exact I6|].
        rewrite B2 in I7. rewrite app_length. destruct x as [[|]|e| |]; auto; try lia.
        -- destruct I7 as [-> I7]. split; [reflexivity|]. left. destruct I7 as [I7|[-> I7]]; [lia|]. cbn. lia.
        -- destruct I7 as (I7 & I8 & I9 & I10 & I11). split; [exact I7|]. split; [exact I8|]. split; [left; destruct I9 as [I9|[-> I9]]; cbn; lia|]. auto.
    + specialize (IH ((c, O) :: st) (d ++ br) s).
      destruct (iterate w root read_visit f ((c, O) :: st) s) as [[x st'] s']. apply IH; auto.
      * cbn [swork]. rewrite skipn_O, El. lia.
      * apply rest_enter; auto. rewrite El. discriminate.
  - pose proof (fetch_spec w root st) as S. rewrite Ef in S. destruct S.
  - pose proof (fetch_spec w root st) as S. rewrite Ef in S. destruct S.
Qed.

(** A reader positioned at [pos] of a file with the given content. *)
Record reader_at (content : bytes) (pos : Z) (r : reader) : Prop := {
  ra_off : r_off r = pos;
  ra_pos : 0 <= pos;
  ra_rest : exists b2, rest (r_root r) (r_stack r) b2 /\ skipn (Z.to_nat pos) content = obr (r_data r) ++ b2;
  ra_chain : chain (r_root r) (r_stack r);
  ra_data : data_ok (r_data r)
}.

Lemma walk_enough root st : chain root st -> (swork root st < walk_fuel root st)%nat.
Proof. intros H. apply chain_work in H. unfold walk_fuel. lia. Qed.

Lemma skipn_advance {A} (l m b : list A) pos : 0 <= pos -> skipn (Z.to_nat pos) l = m ++ b -> skipn (Z.to_nat (pos + zlen m)) l = b.
Proof.
  intros Hp H. unfold zlen. rewrite Z2Nat.inj_add, Nat2Z.id by lia. rewrite <- skipn_skipn', H.
  rewrite skipn_app, skipn_all, Nat.sub_diag. reflexivity.
Qed.

(** What a read of [k] bytes delivers. *)
Definition read_post (w : world) (content : bytes) (pos : Z) (k : nat) (r : reader) (x : bytes * res unit * reader) : Prop :=
  let '(m, e, r') := x in
  r_root r' = r_root r /\ r_size r' = r_size r /\ reader_at content (pos + zlen m) r' /\
  m = firstn (length m) (skipn (Z.to_nat pos) content) /\ (length m <= k)%nat /\
  match e with
  | Ok _ => length m = k
  | Err EEOF => m = skipn (Z.to_nat pos) content /\ (length m < k \/ k = 0)%nat
  | Err e => e = EFetch /\ ~ below_available w (r_root r) /\ (length m < k \/ k = 0)%nat /\ fetch_child w (r_root r') (r_stack r') = DErr EFetch /\ r_data r' = None
  | Panic => False
  | Fuel => False
  end.

Lemma firstn_prefix {A} (m b l : list A) : l = m ++ b -> m = firstn (length m) l.
Proof. intros ->. rewrite firstn_app, firstn_all, Nat.sub_diag. cbn. now rewrite app_nil_r. Qed.

Lemma CtxReadFull_spec w content pos k r : reader_at content pos r -> read_post w content pos k r (CtxReadFull w k r).
Proof.
  intros [Ho Hp (b2 & HR & Hc) HC HD]. unfold CtxReadFull.
  assert (G : forall s b, rs_data s = None -> rest (r_root r) (r_stack r) b -> rs_off s = pos + zlen (rs_out s) ->
     skipn (Z.to_nat pos) content = rs_out s ++ b -> (length (rs_out s) + rs_room s = k)%nat -> (0 < rs_room s \/ k = 0)%nat ->
     read_post w content pos k r
       (let '(x, st, s') := iterate w (r_root r) read_visit (walk_fuel (r_root r) (r_stack r)) (r_stack r) s in
        (rs_out s', read_end x, mkReader (r_root r) (r_size r) (rs_off s') st (rs_data s')))).
  { intros s b Hsd Hr Hso Hsc Hk Hkk. pose proof (iterate_read w (r_root r) (walk_fuel (r_root r) (r_stack r)) (r_stack r) b s (walk_enough _ _ HC) Hr HC Hsd) as I.
    destruct (iterate w (r_root r) read_visit (walk_fuel (r_root r) (r_stack r)) (r_stack r) s) as [[x st] s'].
    destruct I as (m & b' & -> & I2 & I3 & (b3 & I4 & ->) & I5 & I6 & I7). rewrite app_assoc in Hsc. rewrite <- I2 in Hsc.
    unfold read_post. cbn [r_root r_size r_off r_stack r_data]. split; [reflexivity|]. split; [reflexivity|]. split.
    { split; cbn [r_root r_size r_off r_stack r_data]; auto.
      - rewrite I3, Hso, I2, zlen_app. lia.
      - unfold zlen. lia.
      - exists b3. split; [assumption|]. now apply skipn_advance. }
    split; [eapply firstn_prefix; exact Hsc|]. rewrite I2, app_length.
    destruct x as [[|]|e| |]; cbn [read_end]; try contradiction.
    - split; lia.
    - destruct I7 as [E I7]. rewrite E in Hsc. rewrite app_nil_r in Hsc. split; [destruct I7 as [|[-> ?]]; cbn; lia|].
      split; [rewrite <- I2; now symmetry|]. destruct I7 as [I7|[-> I7]]; cbn; lia.
    - destruct I7 as (-> & I8 & I9 & I10 & I11). split; [destruct I9 as [I9|[-> I9]]; cbn; lia|]. split; [reflexivity|]. split; [exact I8|]. split; [destruct I9 as [I9|[-> I9]]; cbn; lia|]. auto. }
  destruct (r_data r) as [b|] eqn:Ed.
  - pose proof (read_buffer_spec b (mkRs [] k (r_off r) None) (HD b eq_refl)) as (B1 & B2 & B3 & B4 & B5).
    cbn [rs_out rs_room rs_off rs_data app obr] in *. set (s := read_buffer b (mkRs [] k (r_off r) None)) in *.
    destruct (rs_room s =? 0)%nat eqn:E0.
    + apply Nat.eqb_eq in E0. unfold read_post. cbn [r_root r_size]. split; [reflexivity|]. split; [reflexivity|].
      assert (Hsc : skipn (Z.to_nat pos) content = rs_out s ++ (obr (rs_data s) ++ b2)).
      { rewrite Hc, B1, B4, app_assoc, firstn_skipn. reflexivity. }
      split.
      { split; cbn [r_root r_size r_off r_stack r_data]; auto.
        - rewrite B3, B1. congruence.
        - unfold zlen. lia.
        - exists b2. split; [assumption|]. now apply skipn_advance. }
      split; [eapply firstn_prefix; exact Hsc|]. rewrite B1, firstn_length. split; lia.
    + apply Nat.eqb_neq in E0. apply (G s b2).
      * unfold s. unfold read_buffer, take_buffer. cbn [rs_out rs_room rs_off].
        destruct b as [bd bi]. cbn [fst snd]. rewrite br_rest_advance by exact (HD _ eq_refl).
        rewrite skipn_all2 by lia. reflexivity.
      * assumption.
      * rewrite B3, B1. lia.
      * rewrite Hc, B1. rewrite firstn_all2 by lia. reflexivity.
      * rewrite B1, firstn_length. lia.
      * left. lia.
  - cbn [obr app] in Hc. apply (G (mkRs [] k (r_off r) None) b2); cbn [rs_out rs_room rs_off rs_data]; auto.
    + change (zlen (@nil byte)) with 0. lia.
    + lia.
Qed.

(** ** Copying *)

Lemma write_buffer_spec wr b s : 0 <= snd b ->
  match write_buffer wr b s with
  | (Ok _, s') => ws_out s' = ws_out s ++ br_rest b /\ ws_off s' = ws_off s + zlen (br_rest b) /\ ws_data s' = None
  | (Err e, s') => e = EWrite /\ (exists m, ws_out s' = ws_out s ++ m /\ br_rest b = m ++ obr (ws_data s')) /\
      ws_off s' = ws_off s /\ data_ok (ws_data s') /\
      (exists rcv x, snd (wr rcv x) = true \/ (fst (wr rcv x) < length x)%nat)
  | (Panic, _) => False
  | (Fuel, _) => False
  end.
Proof.
  intros Hb. unfold write_buffer. destruct (br_rest b) as [|x xs] eqn:E.
  - cbn [ws_out ws_off ws_data]. rewrite app_nil_r. change (zlen (@nil byte)) with 0. split; [reflexivity|]. split; [lia|reflexivity].
  - rewrite <- E. destruct (wr (ws_out s) (br_rest b)) as [m0 fail] eqn:Ew. cbv zeta.
    destruct (fail || negb (Nat.min m0 (length (br_rest b)) =? length (br_rest b))%nat) eqn:Ef; cbn [ws_out ws_off ws_data].
    + split; [reflexivity|]. destruct b as [d i]. cbn [fst snd] in *. split.
      { eexists. split; [reflexivity|]. cbn [obr].
        pose proof (br_rest_advance d i (Nat.min m0 (length (br_rest (d, i)))) Hb) as A.
        unfold zlen in A. rewrite firstn_length in A.
        replace (Nat.min (Nat.min m0 (length (br_rest (d, i)))) (length (br_rest (d, i)))) with (Nat.min m0 (length (br_rest (d, i)))) in A by lia.
        rewrite A. now rewrite firstn_skipn. }
      split; [reflexivity|]. split; [intros b' Hb'; injection Hb' as <-; cbn; lia|].
      exists (ws_out s), (br_rest (d, i)). rewrite Ew. cbn [fst snd]. apply orb_true_iff in Ef as [->|Ef]; [now left|right].
      apply negb_true_iff, Nat.eqb_neq in Ef. lia.
    + apply orb_false_iff in Ef as [_ Ef]. apply negb_false_iff, Nat.eqb_eq in Ef. rewrite Ef, firstn_all.
      unfold zlen. auto.
Qed.

Lemma iterate_write w wr root fuel : forall st b s, (swork root st < fuel)%nat -> rest root st b -> chain root st ->
  ws_data s = None ->
  match iterate w root (write_visit wr) fuel st s with
  | (x, st', s') => exists m b', b = m ++ b' /\ ws_out s' = ws_out s ++ m /\
      (exists b2, rest root st' b2 /\ b' = obr (ws_data s') ++ b2) /\ chain root st' /\ data_ok (ws_data s') /\
      match x with
      | Ok true => False
      | Ok false => b' = [] /\ ws_off s' = ws_off s + zlen m
      | Err e => (e = EFetch /\ ~ below_available w root /\ ws_off s' = ws_off s + zlen m /\ fetch_child w root st' = DErr EFetch /\ ws_data s' = None) \/
                 (e = EWrite /\ exists rcv x, snd (wr rcv x) = true \/ (fst (wr rcv x) < length x)%nat)
      | Panic => False
      | Fuel => False
      end
  end.
Proof.
  induction fuel as [|f IH]; intros st b s Hw HR HI Hd; [lia|]. cbn [iterate].
  destruct (fetch_child w root st) as [|e|c| |] eqn:Ef.
  - pose proof (fetch_spec w root st) as S. rewrite Ef in S.
    assert (Hne : st <> []) by (destruct S as (n & i & r & -> & _); discriminate).
    pose proof (next_up_spec root st b Hne S HR) as N. destruct (next_up st) as [[|] st'] eqn:En.
    + destruct N as (N1 & N2 & N3). apply IH; auto; [lia|]. eapply chain_next; eassumption.
    + destruct N as [-> N]. exists [], []. rewrite (app_nil_r (ws_out s)), Hd. change (zlen (@nil byte)) with 0.
      split; [reflexivity|]. split; [reflexivity|]. split; [exists []; auto|].
      split; [eapply chain_next; eassumption|]. split; [intros ? ?; discriminate|]. split; [reflexivity|lia].
  - pose proof (fetch_spec w root st) as S. rewrite Ef in S. destruct S as [-> _].
    exists [], b. rewrite (app_nil_r (ws_out s)), Hd. change (zlen (@nil byte)) with 0.
    split; [reflexivity|]. split; [reflexivity|]. split; [exists b; auto|].
    split; [assumption|]. split; [intros ? ?; discriminate|]. left. split; [reflexivity|].
    split; [intros Hb; exact (chain_fetch_ok w root st _ Hb HI Ef)|]. split; [lia|]. auto.
  - destruct (rest_down w root st b c Ef HR) as (d & br & Ht & -> & HF & Hsw & _).
    pose proof (chain_down _ _ _ _ HI Ef O) as HI'. rewrite weight_eq in Hsw.
    unfold write_visit at 1. destruct (node_links c) as [|l0 ls0] eqn:El.
    + assert (HL : leaf_bytes c d) by (inversion Ht; subst; [assumption|congruence]).
      apply leaf_bytes_read in HL as [_ HL]. rewrite HL.
      pose proof (write_buffer_spec wr (d, 0) s ltac:(cbn; lia)) as B.
      rewrite br_rest_zero in B. destruct (write_buffer wr (d, 0) s) as [[u|e| |] s1] eqn:Ew; try contradiction.
      * destruct B as (B1 & B2 & B3).
        specialize (IH ((c, O) :: st) br s1).
        destruct (iterate w root (write_visit wr) f ((c, O) :: st) s1) as [[x st'] s'].
        destruct IH as (m & b' & -> & I2 & I4 & I5 & I6 & I7).
        { cbn [swork]. rewrite skipn_O, El. cbn [sumw fold_right]. lia. }
        { now apply rest_leaf. }
        { assumption. }
        { assumption. }
        exists (d ++ m), b'. split; [now rewrite app_assoc|]. split; [rewrite I2, B1; now rewrite app_assoc|].
        split; [exact I4|]. split; [exact I5|]. split; [exact I6|]. rewrite zlen_app.
        destruct x as [[|]|e| |]; auto.
        -- destruct I7 as [-> I7]. split; [reflexivity|lia].
        -- destruct I7 as [(I7 & I8 & I9 & I10)|I7]; [left|right; assumption]. split; [assumption|]. split; [assumption|]. split; [lia|exact I10].
      * destruct B as (-> & (m & B1 & B2) & B3 & B4 & B5). exists m, (obr (ws_data s1) ++ br).
        split; [rewrite B2; now rewrite app_assoc|]. split; [assumption|]. split; [exists br; split; [now apply rest_leaf|reflexivity]|].
        split; [assumption|]. split; [assumption|]. right. auto.
    + specialize (IH ((c, O) :: st) (d ++ br) s).
      destruct (iterate w root (write_visit wr) f ((c, O) :: st) s) as [[x st'] s']. apply IH; auto.
      * cbn [swork]. rewrite skipn_O, El. lia.
      * apply rest_enter; auto. rewrite El. discriminate.
  - pose proof (fetch_spec w root st) as S. rewrite Ef in S. destruct S.
  - pose proof (fetch_spec w root st) as S. rewrite Ef in S. destruct S.
Qed.

(** What a copy delivers. The offset is exact except after a failed write. *)
Definition copy_post (w : world) (wr : writer) (content : bytes) (pos : Z) (r : reader) (x : bytes * res unit * reader) : Prop :=
  let '(m, e, r') := x in
  r_root r' = r_root r /\ r_size r' = r_size r /\
  reader_at content (pos + zlen m) (mkReader (r_root r') (r_size r') (pos + zlen m) (r_stack r') (r_data r')) /\
  m = firstn (length m) (skipn (Z.to_nat pos) content) /\
  match e with
  | Ok _ => m = skipn (Z.to_nat pos) content /\ r_off r' = pos + zlen m
  | Err e => (e = EFetch /\ ~ below_available w (r_root r) /\ r_off r' = pos + zlen m /\ fetch_child w (r_root r') (r_stack r') = DErr EFetch /\ r_data r' = None) \/
             (e = EWrite /\ exists rcv x, snd (wr rcv x) = true \/ (fst (wr rcv x) < length x)%nat)
  | Panic => False
  | Fuel => False
  end.

Lemma WriteTo_spec w wr content pos r : reader_at content pos r -> copy_post w wr content pos r (WriteTo w wr r).
Proof.
  intros [Ho Hp (b2 & HR & Hc) HC HD]. unfold WriteTo.
  assert (G : forall s b, ws_data s = None -> rest (r_root r) (r_stack r) b -> ws_off s = pos + zlen (ws_out s) ->
     skipn (Z.to_nat pos) content = ws_out s ++ b ->
     copy_post w wr content pos r
       (let '(x, st, s') := iterate w (r_root r) (write_visit wr) (walk_fuel (r_root r) (r_stack r)) (r_stack r) s in
        (ws_out s', write_end x, mkReader (r_root r) (r_size r) (ws_off s') st (ws_data s')))).
  { intros s b Hsd Hr Hso Hsc. pose proof (iterate_write w wr (r_root r) (walk_fuel (r_root r) (r_stack r)) (r_stack r) b s (walk_enough _ _ HC) Hr HC Hsd) as I.
    destruct (iterate w (r_root r) (write_visit wr) (walk_fuel (r_root r) (r_stack r)) (r_stack r) s) as [[x st] s'].
    destruct I as (m & b' & -> & I2 & (b3 & I4 & ->) & I5 & I6 & I7). rewrite app_assoc in Hsc. rewrite <- I2 in Hsc.
    unfold copy_post. cbn [r_root r_size r_off r_stack r_data]. split; [reflexivity|]. split; [reflexivity|]. split.
    { split; cbn [r_root r_size r_off r_stack r_data]; auto.
      - unfold zlen. lia.
      - exists b3. split; [assumption|]. now apply skipn_advance. }
    split; [eapply firstn_prefix; exact Hsc|].
    assert (E : pos + zlen (ws_out s') = ws_off s + zlen m) by (rewrite I2, zlen_app; lia).
    destruct x as [[|]|e| |]; cbn [write_end]; try contradiction.
    - destruct I7 as [E' I7]. rewrite E' in Hsc. rewrite app_nil_r in Hsc. split; [now symmetry|lia].
    - destruct I7 as [(-> & I8 & I9 & I10)|I7]; [left|right; assumption]. split; [reflexivity|]. split; [assumption|]. split; [lia|exact I10]. }
  destruct (r_data r) as [b|] eqn:Ed.
  - pose proof (write_buffer_spec wr b (mkWs [] (r_off r) None) (HD b eq_refl)) as B.
    cbn [ws_out ws_off ws_data app obr] in *. destruct (write_buffer wr b (mkWs [] (r_off r) None)) as [[u|e| |] s] eqn:Ew; try contradiction.
    + destruct B as (B1 & B2 & B3). apply (G s b2); auto.
      * rewrite B2, B1. lia.
      * rewrite Hc, B1. reflexivity.
    + destruct B as (-> & (m & B1 & B2) & B3 & B4 & B5). unfold copy_post. cbn [r_root r_size r_off r_stack r_data].
      split; [reflexivity|]. split; [reflexivity|].
      assert (Hsc : skipn (Z.to_nat pos) content = ws_out s ++ (obr (ws_data s) ++ b2)).
      { rewrite Hc, B1, B2, app_assoc. reflexivity. }
      split.
      { split; cbn [r_root r_size r_off r_stack r_data]; auto.
        - unfold zlen. lia.
        - exists b2. split; [assumption|]. now apply skipn_advance. }
      split; [eapply firstn_prefix; exact Hsc|]. right. auto.
  - cbn [obr app] in Hc. apply (G (mkWs [] (r_off r) None) b2); cbn [ws_out ws_off ws_data]; auto.
    change (zlen (@nil byte)) with 0. lia.
Qed.

(** ** Seeking *)

Lemma seek_sizes_spec (css : list (list bytes)) : forall left i0, 0 <= left ->
  let (left', i) := seek_sizes (map (fun cs => zlen (concat cs)) css) left i0 in
  exists pre post, css = pre ++ post /\ i = (i0 + length pre)%nat /\ left = zlen (concat (concat pre)) + left' /\ 0 <= left' /\
    match post with [] => True | c :: _ => left' < zlen (concat c) end.
Proof.
  induction css as [|c css IH]; intros left i0 Hl; cbn [map seek_sizes].
  - exists [], []. cbn. repeat split; auto; lia.
  - destruct (left <? zlen (concat c)) eqn:E.
    + exists [], (c :: css). cbn. repeat split; auto; lia.
    + specialize (IH (left - zlen (concat c)) (S i0) ltac:(lia)).
      destruct (seek_sizes (map (fun cs => zlen (concat cs)) css) (left - zlen (concat c)) (S i0)) as [left' i].
      destruct IH as (pre & post & -> & -> & E2 & H & Hm). exists (c :: pre), post. cbn [app length concat].
      rewrite concat_app, zlen_app. repeat split; auto; lia.
Qed.

Lemma mod64_exact z : 0 <= z < 18446744073709551616 -> mod64 z = z.
Proof. intros. unfold mod64. now apply Z.mod_small. Qed.

Lemma concat_len_in (css : list (list bytes)) cs : In cs css -> zlen (concat cs) <= zlen (concat (concat css)).
Proof.
  induction css as [|c css IH]; intros H; [destruct H|]. cbn [concat]. rewrite concat_app, zlen_app.
  destruct H as [->|H]; [pose proof (zlen_nonneg (concat (concat css))); lia|]. pose proof (zlen_nonneg (concat c)). specialize (IH H). lia.
Qed.

Lemma sumw_in l ls : In l ls -> (weight (lto l) <= sumw ls)%nat.
Proof.
  induction ls as [|m ls IH]; intros H; [destruct H|]. change (sumw (m :: ls)) with (weight (lto m) + sumw ls)%nat.
  destruct H as [->|H]; [lia|]. specialize (IH H). lia.
Qed.

Lemma Forall2_len {A B} (R : A -> B -> Prop) l m : Forall2 R l m -> length l = length m.
Proof. induction 1; cbn; congruence. Qed.

Lemma Forall2_inv {A B} (R : A -> B -> Prop) x l y m : Forall2 R (x :: l) (y :: m) -> R x y /\ Forall2 R l m.
Proof. intros H. inversion H; auto. Qed.

Lemma Forall2_tree ls css : Forall2 file_dag (map lto ls) css -> Forall2 tree_bytes (map lto ls) (map (@concat byte) css).
Proof.
  revert css. induction ls as [|l ls IH]; intros css H; inversion H; subst; cbn; constructor; auto. now apply file_dag_tree.
Qed.

Lemma seek_walk_spec w root fuel : forall st left c cs br, (weight c <= fuel)%nat -> chain root st ->
  (st = [] /\ c = root \/ exists n i r l, st = (n, i) :: r /\ nth_error (node_links n) i = Some l /\ c = lto l) ->
  file_dag c cs -> zlen (concat cs) < 18446744073709551616 -> 0 <= left -> frames st br -> (st <> [] -> left < zlen (concat cs)) ->
  match seek_walk fuel w root st left None with
  | (Ok _, st', d') => chain root st' /\ data_ok d' /\
      exists b2, rest root st' b2 /\ skipn (Z.to_nat left) (concat cs) ++ br = obr d' ++ b2
  | (Err e, st', d') => e = EFetch /\ ~ below_available w root /\ d' = None /\ chain root st' /\ fetch_child w root st' = DErr EFetch /\
      exists n i r l br' d left', st' = (n, i) :: r /\ nth_error (node_links n) i = Some l /\ tree_bytes (lto l) d /\ frames st' br' /\ 0 <= left' < zlen d /\
        zlen (concat cs) - left + zlen br = zlen d - left' + zlen br'
  | (Panic, _, _) => False
  | (Fuel, _, _) => False
  end.
Proof.
  induction fuel as [|f IH]; intros st left c cs br Hw HC Htg Hfd Hlen Hl HF Hlt; [rewrite weight_eq in Hw; lia|].
  rewrite weight_eq in Hw. destruct f as [|f']; [lia|]. set (f := S f') in *. cbn [seek_walk].
  destruct (fetch_child w root st) as [|e|c0| |] eqn:Ef.
  - exfalso. pose proof (fetch_spec w root st) as S. rewrite Ef in S. destruct S as (n & i & r & -> & Hs).
    destruct Htg as [[? _]|(n' & i' & r' & l & E & Hn & _)]; [discriminate|]. injection E as <- <- <-.
    rewrite (skipn_nth _ _ _ Hn) in Hs. discriminate.
  - pose proof (fetch_spec w root st) as S. rewrite Ef in S. destruct S as [-> _]. split; [reflexivity|].
    split; [intros Hb; exact (chain_fetch_ok w root st _ Hb HC Ef)|]. split; [reflexivity|]. split; [assumption|]. split; [assumption|].
    destruct Htg as [[-> ->]|(n & i & r & l & E & Hn & ->)]; [cbn in Ef; discriminate|]. exists n, i, r, l, br, (concat cs), left. split; [exact E|]. split; [exact Hn|].
    split; [now apply file_dag_tree|]. split; [exact HF|]. split; [split; [lia|apply Hlt; rewrite E; discriminate]|lia].
  - assert (c0 = c) as ->.
    { pose proof (fetch_spec w root st) as S. rewrite Ef in S.
      destruct S as [(-> & ->)|(n & i & r & l & -> & Hn & ->)]; destruct Htg as [(E & ->)|(n' & i' & r' & l' & E & Hn' & ->)]; try discriminate; auto.
      injection E as <- <- <-. congruence. }
    pose proof (fun j => chain_down _ _ _ _ HC Ef j) as HCd.
    destruct Hfd as [p d|p b fs Hd Ht Hb Hs|p b fs ls css Hls Hu Hd Ht Hda HFl Hb Hs].
    + cbn [node_links ReadUnixFSNodeData]. unfold f. cbn [seek_walk fetch_child node_links nth_error].
      split; [apply HCd|]. split; [intros x Hx; injection Hx as <-; cbn; lia|]. exists br. split; [now apply rest_leaf|].
      cbn [obr]. f_equal. cbn [concat]. rewrite app_nil_r. unfold br_rest, zdrop. cbn [fst snd].
      destruct (zlen d <=? left) eqn:E; [|reflexivity]. apply skipn_all2. unfold zlen in E. lia.
    + cbn [node_links]. assert (HLb : leaf_bytes (NProto p b []) (getData fs)) by (now constructor).
      apply leaf_bytes_read in HLb as [_ HLb]. rewrite HLb. unfold f. cbn [seek_walk fetch_child node_links nth_error].
      split; [apply HCd|]. split; [intros x Hx; injection Hx as <-; cbn; lia|]. exists br. split; [now apply rest_leaf|].
      cbn [obr]. f_equal. cbn [concat]. rewrite app_nil_r. unfold br_rest, zdrop. cbn [fst snd].
      destruct (zlen (getData fs) <=? left) eqn:E; [|reflexivity]. apply skipn_all2. unfold zlen in E. lia.
    + cbn [node_links]. destruct ls as [|l0 ls0] eqn:Els; [congruence|]. rewrite <- Els in *. clear l0 ls0 Els.
      cbn [ExtractFSNode]. rewrite Hd. unfold NumChildren. rewrite Hb. pose proof (Forall2_len _ _ _ HFl) as HL. rewrite map_length in HL.
      assert (Elen : (zlen (map (fun cs => mod64 (zlen (concat cs))) css) =? zlen ls) = true).
      { apply Z.eqb_eq. unfold zlen at 1 3. rewrite map_length. f_equal. symmetry. exact HL. }
      rewrite Elen.
      assert (Emod : map (fun cs => mod64 (zlen (concat cs))) css = map (fun cs => zlen (concat cs)) css).
      { apply map_ext_in. intros x Hx. apply mod64_exact. pose proof (concat_len_in css x Hx). pose proof (zlen_nonneg (concat x)). lia. }
      rewrite Emod.
      pose proof (seek_sizes_spec css left 0 Hl) as S.
      destruct (seek_sizes (map (fun cs => zlen (concat cs)) css) left 0) as [left' i].
      destruct S as (pre & post & -> & Ei & El & Hl' & Hpost). cbn in Ei. subst i.
      rewrite app_length in HL.
      destruct post as [|ci post].
      * unfold f. cbn [seek_walk fetch_child node_links].
        rewrite (proj2 (nth_error_None ls (length pre))) by (cbn in HL; lia).
        split; [apply HCd|]. split; [intros x Hx; discriminate|]. exists br.
        split.
        { change br with (concat (@nil bytes) ++ br). constructor; [cbn in *; lia| |assumption]. cbn [node_links].
          rewrite skipn_all2 by (cbn in HL; lia). constructor. }
        cbn [obr app]. rewrite skipn_all2; [reflexivity|]. rewrite app_nil_r. unfold zlen in El. lia.
      * assert (Hn : exists li, nth_error ls (length pre) = Some li).
        { destruct (nth_error ls (length pre)) eqn:En; [eauto|]. apply nth_error_None in En. cbn in HL. lia. }
        destruct Hn as (li & Hn).
        assert (Hls' : ls = firstn (length pre) ls ++ li :: skipn (S (length pre)) ls).
        { rewrite <- (skipn_nth _ _ _ Hn). now rewrite firstn_skipn. }
        assert (HF2 : Forall2 file_dag (map lto (li :: skipn (S (length pre)) ls)) (ci :: post)).
        { rewrite Hls', map_app in HFl. apply Forall2_app_inv_l in HFl as (l1 & l2 & F1 & F2 & E).
          assert (l2 = ci :: post) as <-; [|exact F2].
          apply Forall2_len in F1. rewrite map_length, firstn_length in F1.
          assert (length l1 = length pre) by lia. apply (f_equal (skipn (length pre))) in E.
          rewrite skipn_app, skipn_all, Nat.sub_diag in E. rewrite skipn_app in E. rewrite <- H in E at 1. rewrite skipn_all, H, Nat.sub_diag in E.
          symmetry in E. exact E. }
        cbn [map] in HF2. apply Forall2_inv in HF2 as [HF3 HF4].
        specialize (IH ((NProto p b ls, length pre) :: st) left' (lto li) ci (concat (map (@concat byte) post) ++ br)).
        assert (Hli : In li ls) by (eapply nth_error_In; exact Hn).
        pose proof (sumw_in li ls Hli) as Hwi. cbn [node_links] in Hw.
        match type of IH with _ -> _ -> _ -> _ -> _ -> _ -> _ -> _ -> ?G => assert (HG : G) end.
        { apply IH.
          - lia.
          - apply HCd.
          - right. eexists _, _, _, li. split; [reflexivity|]. split; [exact Hn|reflexivity].
          - assumption.
          - pose proof (concat_len_in (pre ++ ci :: post) ci ltac:(apply in_or_app; right; now left)). lia.
          - assumption.
          - constructor; [cbn [node_links]; apply nth_error_Some; congruence| |assumption].
            cbn [node_links]. now apply Forall2_tree.
          - intros _. exact Hpost. }
        destruct (seek_walk f w root ((NProto p b ls, length pre) :: st) left' None) as [[[u|e| |] st'] d']; auto.
        2:{ destruct HG as (G1 & G2 & G0 & G3 & G4 & n & i & r & l & br' & d & left2 & E1 & E2 & E3 & E4 & E5 & E6). split; [exact G1|]. split; [exact G2|]. split; [exact G0|]. split; [exact G3|]. split; [exact G4|].
            exists n, i, r, l, br', d, left2. repeat (split; [assumption|]). rewrite <- E6. rewrite concat_app. cbn [concat]. rewrite !concat_app, <- concat_concat, !zlen_app. lia. }
        destruct HG as (G1 & G2 & b2 & G3 & G4). split; [assumption|]. split; [assumption|]. exists b2. split; [assumption|].
        rewrite <- G4. rewrite app_assoc. f_equal. rewrite concat_app. cbn [concat]. rewrite !concat_app.
        rewrite <- concat_concat. rewrite El.
        rewrite Z2Nat.inj_add by (try apply zlen_nonneg; assumption). unfold zlen at 1. rewrite Nat2Z.id.
        rewrite <- skipn_skipn'. rewrite skipn_app, skipn_all, Nat.sub_diag. cbn [app skipn].
        rewrite skipn_app. f_equal. replace (Z.to_nat left' - length (concat ci))%nat with 0%nat; [reflexivity|].
        unfold zlen in Hpost. lia.
  - pose proof (fetch_spec w root st) as S. rewrite Ef in S. destruct S.
  - pose proof (fetch_spec w root st) as S. rewrite Ef in S. destruct S.
Qed.
