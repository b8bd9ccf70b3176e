(** The reader on any node at all. *)
From Verif Require Import Base Pb PbProofs FSNode Dag SpecFile Reader SpecReader SpecSafe ReaderRun ReaderProofs ReaderProofs2.

(** The walker is on a path from the root, at a child or behind the last one. *)
Definition pos_ok (root : node) (st : stack) : Prop :=
  chain root st /\ match st with [] => True | (n, i) :: _ => (i <= length (node_links n))%nat end.
(** The walker is at the end. *)
Definition at_end (st : stack) : Prop := exists n, st = [(n, length (node_links n))].

Lemma chain_below root f n i r : chain root (f :: (n, i) :: r) -> (i < length (node_links n))%nat.
Proof. intros H. inversion H; subst. apply nth_error_Some. congruence. Qed.
Lemma next_up_safe root st : pos_ok root st -> (exists n i r, st = (n, i) :: r /\ skipn i (node_links n) = []) ->
  match next_up st with
  | (true, st') => pos_ok root st' /\ (swork root st' < swork root st)%nat
  | (false, st') => pos_ok root st' /\ at_end st'
  end.
Proof.
  assert (G : forall r f, chain root (f :: r) -> r <> [] ->
    match next_up r with
    | (true, st') => pos_ok root st' /\ (swork root st' <= fwork r)%nat
    | (false, st') => pos_ok root st' /\ at_end st'
    end).
  { induction r as [|[n i] r IH]; intros f Hc Hne; [congruence|]. cbn [next_up]. pose proof (chain_below _ _ _ _ _ Hc) as Hi. apply chain_tail in Hc as Hc1.
    unfold next_index. replace (S i <=? length (node_links n))%nat with true by (symmetry; apply Nat.leb_le; lia).
    destruct (S i =? length (node_links n))%nat eqn:E.
    - apply Nat.eqb_eq in E. destruct r as [|g r].
      + split; [|exists n; now rewrite E]. split; [eapply chain_index; eassumption|lia].
      + specialize (IH _ Hc1 ltac:(discriminate)). destruct (next_up (g :: r)) as [[|] st']; [|exact IH]. destruct IH as (X & Y). split; [exact X|].
        cbn [fwork] in *. destruct g. lia.
    - apply Nat.eqb_neq in E. split; [split; [eapply chain_index; eassumption|lia]|]. cbn [swork fwork]. lia. }
  intros (Hc & Hi) (n & i & r & -> & Hs). cbn [next_up].
  assert (Ei : i = length (node_links n)).
  { apply (f_equal (@length _)) in Hs. rewrite skipn_length in Hs. cbn in Hs. lia. }
  unfold next_index. replace (S i <=? length (node_links n))%nat with false by (symmetry; apply Nat.leb_gt; lia).
  rewrite (proj2 (Nat.eqb_eq _ _) Ei). destruct r as [|f r].
  - split; [split; assumption|]. exists n. now rewrite Ei.
  - pose proof (G (f :: r) _ Hc ltac:(discriminate)) as X. destruct (next_up (f :: r)) as [[|] st']; [|exact X]. destruct X as (X & Y). split; [exact X|]. cbn [swork]. lia.
Qed.
Lemma fetch_work w root st c : fetch_child w root st = DNode c -> pos_ok root st ->
  pos_ok root ((c, O) :: st) /\ (swork root ((c, O) :: st) < swork root st)%nat.
Proof.
  intros Hf (Hc & Hi). split; [split; [eapply chain_down; eassumption|lia]|]. cbn [swork]. rewrite skipn_O.
  pose proof (fetch_spec w root st) as S. rewrite Hf in S. destruct S as [(-> & ->)|(n & i & r & l & -> & Hn & ->)]; cbn [swork fwork].
  - rewrite weight_eq. lia.
  - rewrite (skipn_nth _ _ _ Hn). cbn [sumw fold_right]. fold (sumw (skipn (S i) (node_links n))). rewrite (weight_eq (lto l)). lia.
Qed.

(** Any visitor. *)
Lemma iterate_safe {T} w root (visit : node -> T -> res bool * T) (J : T -> Prop) :
  (forall n s, J s -> let (r, s') := visit n s in J s' /\ r <> Panic /\ r <> Fuel) ->
  forall fuel st s, (swork root st < fuel)%nat -> pos_ok root st -> J s ->
  let '(x, st', s') := iterate w root visit fuel st s in pos_ok root st' /\ J s' /\ x <> Panic /\ x <> Fuel.
Proof.
  intros Hv. induction fuel as [|f IH]; intros st s Hw Hp Hs; [lia|]. cbn [iterate].
  pose proof (fetch_spec w root st) as S. destruct (fetch_child w root st) as [|e|c| |] eqn:Ef; try contradiction.
  - pose proof (next_up_safe root st Hp S) as N. destruct (next_up st) as [[|] st'].
    + destruct N as (N1 & N2). apply IH; [lia|exact N1|exact Hs].
    + repeat split; try discriminate; try apply N; exact Hs.
  - repeat split; try discriminate; try apply Hp; exact Hs.
  - destruct (fetch_work w root st c Ef Hp) as (P1 & P2). pose proof (Hv c s Hs) as V. destruct (visit c s) as [[[|]|e| |] s'];
      destruct V as (V1 & V2 & V3); try congruence; try (repeat split; try discriminate; try apply P1; exact V1). apply IH; [lia|exact P1|exact V1].
Qed.

(** Reading. *)
Lemma iterate_any w root fuel : forall st s, (swork root st < fuel)%nat -> pos_ok root st -> rs_data s = None ->
  let '(x, st', s') := iterate w root read_visit fuel st s in pos_ok root st' /\ data_ok (rs_data s') /\
    exists m, rs_out s' = rs_out s ++ m /\ rs_off s' = rs_off s + zlen m /\ (length m <= rs_room s)%nat /\
    match x with
    | Ok true => length m = rs_room s
    | Ok false => rs_data s' = None /\ at_end st'
    | Err _ => True
    | Panic => False
    | Fuel => False
    end.
Proof.
  assert (Z0 : forall A, zlen (@nil A) = 0) by reflexivity.
  assert (D0 : data_ok None) by (intros ? ?; discriminate).
  induction fuel as [|f IH]; intros st s Hw Hp Hd; [lia|]. cbn [iterate].
  pose proof (fetch_spec w root st) as S. destruct (fetch_child w root st) as [|e|c| |] eqn:Ef; try contradiction.
  - pose proof (next_up_safe root st Hp S) as N. destruct (next_up st) as [[|] st'].
    + destruct N as (N1 & N2). apply IH; [lia|exact N1|exact Hd].
    + destruct N as (N1 & N2). split; [exact N1|]. rewrite Hd. split; [exact D0|]. exists []. rewrite app_nil_r, Z0. repeat split; try lia; try exact N2; cbn; lia.
  - split; [exact Hp|]. rewrite Hd. split; [exact D0|]. exists []. rewrite app_nil_r, Z0. repeat split; try lia; cbn; lia.
  - destruct (fetch_work w root st c Ef Hp) as (P1 & P2). unfold read_visit at 1. destruct (node_links c) as [|l0 ls0] eqn:El; [|apply IH; [lia|exact P1|exact Hd]].
    destruct (ReadUnixFSNodeData c) as [d|e| |] eqn:Er.
    + cbv zeta. pose proof (read_buffer_spec (d, 0) s ltac:(cbn; lia)) as (B1 & B2 & B3 & B4 & B5). rewrite br_rest_zero in *.
      destruct (rs_room (read_buffer (d, 0%Z) s) =? 0)%nat eqn:E0.
      * apply Nat.eqb_eq in E0. split; [exact P1|]. split; [exact B5|]. exists (firstn (rs_room s) d). rewrite firstn_length. repeat split; try assumption; lia.
      * apply Nat.eqb_neq in E0.
        assert (Hdn : rs_data (read_buffer (d, 0) s) = None).
        { unfold read_buffer, take_buffer. rewrite br_rest_zero. cbn [fst snd].
          replace (br_rest (d, 0 + zlen (firstn (rs_room s) d))) with (@nil byte); [reflexivity|].
          pose proof (br_rest_advance d 0 (rs_room s) ltac:(lia)) as A. rewrite br_rest_zero in A. rewrite A. symmetry. apply skipn_all2. lia. }
        specialize (IH ((c, O) :: st) (read_buffer (d, 0) s) ltac:(lia) P1 Hdn).
        destruct (iterate w root read_visit f ((c, O) :: st) (read_buffer (d, 0) s)) as [[x st'] s'].
        destruct IH as (I1 & I2 & m & I3 & I4 & I5 & I6). split; [exact I1|]. split; [exact I2|].
        rewrite B1, firstn_all2 in I3 by lia. rewrite B3, firstn_all2 in I4 by lia. exists (d ++ m). rewrite app_length, zlen_app.
        split; [rewrite I3; now rewrite app_assoc|]. split; [lia|]. split; [lia|]. destruct x as [[|]|e| |]; auto; lia.
    + split; [exact P1|]. rewrite Hd. split; [exact D0|]. exists []. rewrite app_nil_r, Z0. repeat split; try lia; cbn; lia.
    + unfold ReadUnixFSNodeData in Er. destruct c as [|p b ls]; [discriminate|]. destruct (FSNodeFromBytes_cases b) as [(fs & E)|(e & E)]; rewrite E in Er; [|discriminate].
      cbn [rbind] in Er. destruct ((_ || _) : bool) in Er; discriminate.
    + unfold ReadUnixFSNodeData in Er. destruct c as [|p b ls]; [discriminate|]. destruct (FSNodeFromBytes_cases b) as [(fs & E)|(e & E)]; rewrite E in Er; [|discriminate].
      cbn [rbind] in Er. destruct ((_ || _) : bool) in Er; discriminate.
Qed.

Record sane (r : reader) : Prop := { sn_pos : pos_ok (r_root r) (r_stack r); sn_data : data_ok (r_data r); sn_off : 0 <= r_off r }.
Definition ended (r : reader) : Prop := at_end (r_stack r) /\ r_data r = None.
Lemma pos_enough root st : pos_ok root st -> (swork root st < walk_fuel root st)%nat.
Proof. intros (H & _). now apply walk_enough. Qed.


(** The decoder does not report io.EOF. *)
Lemma skip_no_eof w b : skip_field w b <> Err EEOF.
Proof.
  unfold skip_field. repeat match goal with |- context [if ?x then _ else _] => destruct x end; try discriminate;
    match goal with |- match ?o with _ => _ end <> _ => destruct o; discriminate end.
Qed.
Lemma handle_no_eof d t w b : handle_data d t w b <> FErr EEOF.
Proof.
  unfold handle_data, handle_varint. repeat (match goal with |- context [match ?x with _ => _ end] => destruct x end; try discriminate).
Qed.
Lemma decode_no_eof b : FSNodeFromBytes b <> Err EEOF.
Proof.
  unfold FSNodeFromBytes, unmarshal_data.
  assert (L : forall f d b, uloop handle_data add_unrec_data f d b <> Err EEOF).
  { induction f as [|f IH]; intros d [|x r]; cbn [uloop]; try discriminate. unfold ustep.
    destruct (decode_varint (x :: r)) as [[y b1]|]; [|discriminate]. pose proof (handle_no_eof d (y / 8) (y mod 8) b1) as H.
    destruct (handle_data d (y / 8) (y mod 8) b1); [apply IH|congruence|].
    pose proof (skip_no_eof (y mod 8) b1) as K. destruct (skip_field (y mod 8) b1); try discriminate; [apply IH|congruence]. }
  pose proof (L (length b) empty_data b) as H. destruct (uloop _ _ _ _ _) as [p| | |]; cbn [rbind]; try discriminate; [|congruence]. destruct (d_type p); discriminate.
Qed.
Lemma data_no_eof n : ReadUnixFSNodeData n <> Err EEOF.
Proof.
  unfold ReadUnixFSNodeData. destruct n as [|p b ls]; [discriminate|]. pose proof (decode_no_eof b) as H. destruct (FSNodeFromBytes b); try discriminate; [|congruence].
  destruct (_ || _); discriminate.
Qed.
Lemma iterate_no_eof w root fuel : forall st s, let '(x, _, _) := iterate w root read_visit fuel st s in x <> Err EEOF.
Proof.
  induction fuel as [|f IH]; intros st s; cbn [iterate]; [discriminate|].
  pose proof (fetch_spec w root st) as S. destruct (fetch_child w root st) as [|e|c| |]; try contradiction.
  - destruct (next_up st) as [[|] st']; [apply IH|discriminate].
  - destruct S as (-> & _). discriminate.
  - unfold read_visit at 1. destruct (node_links c); [|apply IH]. pose proof (data_no_eof c) as H. destruct (ReadUnixFSNodeData c) as [d|e| |]; try discriminate; [|congruence].
    cbv zeta. destruct (_ =? 0)%nat; [discriminate|apply IH].
Qed.

Lemma read_safe w k r : sane r -> let '(m, e, r') := CtxReadFull w k r in
  sane r' /\ r_root r' = r_root r /\ r_off r' = r_off r + zlen m /\ (length m <= k)%nat /\
  match e with Ok _ => length m = k | Err x => x = EEOF -> ended r' | Panic => False | Fuel => False end.
Proof.
  intros [P D O]. unfold CtxReadFull.
  assert (G : forall s, rs_data s = None -> 0 <= rs_off s -> (length (rs_out s) + rs_room s = k)%nat -> rs_off s = r_off r + zlen (rs_out s) ->
    let '(m, e, r') := (let '(x, st, s') := iterate w (r_root r) read_visit (walk_fuel (r_root r) (r_stack r)) (r_stack r) s in
      (rs_out s', read_end x, mkReader (r_root r) (r_size r) (rs_off s') st (rs_data s'))) in
    sane r' /\ r_root r' = r_root r /\ r_off r' = r_off r + zlen m /\ (length m <= k)%nat /\
    match e with Ok _ => length m = k | Err x => x = EEOF -> ended r' | Panic => False | Fuel => False end).
  { intros s Hd Ho Hk Hf. pose proof (iterate_any w (r_root r) (walk_fuel (r_root r) (r_stack r)) (r_stack r) s (pos_enough _ _ P) P Hd) as H.
    pose proof (iterate_no_eof w (r_root r) (walk_fuel (r_root r) (r_stack r)) (r_stack r) s) as N.
    destruct (iterate w (r_root r) read_visit (walk_fuel (r_root r) (r_stack r)) (r_stack r) s) as [[x st] s'].
    destruct H as (H1 & H2 & m & H3 & H4 & H5 & H6). rewrite H3. pose proof (zlen_nonneg m). rewrite zlen_app, app_length. cbn [r_root r_off].
    split; [split; cbn; auto; lia|]. split; [reflexivity|]. split; [lia|]. split; [lia|].
    destruct x as [[|]|e| |]; cbn [read_end]; try exact H6; [lia| |intros ->; congruence]. intros _. split; cbn [r_stack r_data]; apply H6. }
  assert (Z0 : zlen (@nil byte) = 0) by reflexivity.
  destruct (r_data r) as [b|] eqn:Eb; [|apply G; cbn; auto; lia].
  pose proof (read_buffer_spec b (mkRs [] k (r_off r) None) (D b eq_refl)) as (B1 & B2 & B3 & B4 & B5). cbn [rs_out rs_room rs_off app] in B1, B2, B3, B4.
  set (s := read_buffer b (mkRs [] k (r_off r) None)) in *. pose proof (zlen_nonneg (firstn k (br_rest b))).
  assert (L : (length (rs_out s) + rs_room s = k)%nat) by (rewrite B1, B2, firstn_length; lia).
  destruct (rs_room s =? 0)%nat eqn:E0.
  - apply Nat.eqb_eq in E0. split; [split; cbn; auto; lia|]. split; [reflexivity|]. cbn [r_off]. rewrite B1 in *. split; [lia|]. split; lia.
  - apply Nat.eqb_neq in E0. apply G; [|lia|exact L|rewrite B1; lia].
    unfold s, read_buffer, take_buffer. cbn [rs_room]. destruct b as [d i]. cbn [fst snd]. rewrite br_rest_advance by (apply (D _ eq_refl)).
    rewrite skipn_all2 by lia. reflexivity.
Qed.
Lemma write_buffer_safe wr b s : 0 <= snd b -> 0 <= ws_off s -> let (x, s') := write_buffer wr b s in
  data_ok (ws_data s') /\ 0 <= ws_off s' /\ x <> Panic /\ x <> Fuel.
Proof.
  intros Hb Ho. unfold write_buffer. destruct (br_rest b) as [|y r].
  - repeat split; try discriminate; exact Ho.
  - destruct (wr (ws_out s) (y :: r)) as [m0 fl]. destruct (fl || _).
    + repeat split; try discriminate; try exact Ho. intros ? [= <-]. cbn [snd]. lia.
    + repeat split; try discriminate. cbn [ws_off]. lia.
Qed.
Lemma copy_safe w wr r : sane r -> let '(m, e, r') := WriteTo w wr r in sane r' /\ r_root r' = r_root r /\ e <> Panic /\ e <> Fuel.
Proof.
  intros [P D O]. unfold WriteTo.
  set (J := fun s : wstate => data_ok (ws_data s) /\ 0 <= ws_off s).
  assert (G : forall s, J s ->
    let '(m, e, r') := (let '(x, st, s') := iterate w (r_root r) (write_visit wr) (walk_fuel (r_root r) (r_stack r)) (r_stack r) s in
      (ws_out s', write_end x, mkReader (r_root r) (r_size r) (ws_off s') st (ws_data s'))) in
    sane r' /\ r_root r' = r_root r /\ e <> Panic /\ e <> Fuel).
  { intros s Hs. pose proof (iterate_safe w (r_root r) (write_visit wr) J) as H.
    specialize (H ltac:(
      intros n s0 (J1 & J2); unfold write_visit; destruct (node_links n); [|repeat split; try discriminate; assumption];
      destruct (ReadUnixFSNodeData n) as [d|e| |] eqn:Er; [|repeat split; try discriminate; assumption| |];
      [pose proof (write_buffer_safe wr (d, 0) s0 ltac:(cbn; lia) J2) as B; destruct (write_buffer wr (d, 0) s0) as [[u|e| |] s1]; destruct B as (B1 & B2 & B3 & B4);
        try congruence; repeat split; try discriminate; assumption| |];
      exfalso; unfold ReadUnixFSNodeData in Er; destruct n as [|p b ls]; try discriminate; destruct (FSNodeFromBytes_cases b) as [(fs & E)|(e & E)]; rewrite E in Er; try discriminate;
      destruct (_ || _) in Er; discriminate)
      (walk_fuel (r_root r) (r_stack r)) (r_stack r) s (pos_enough _ _ P) P Hs).
    destruct (iterate w (r_root r) (write_visit wr) (walk_fuel (r_root r) (r_stack r)) (r_stack r) s) as [[x st] s'].
    destruct H as (H1 & (H2 & H3) & H4 & H5). split; [split; cbn; auto|]. split; [reflexivity|]. destruct x; cbn [write_end]; split; congruence. }
  destruct (r_data r) as [b|] eqn:Eb; [|apply G; split; [intros ? ?; discriminate|exact O]].
  pose proof (write_buffer_safe wr b (mkWs [] (r_off r) None) (D b eq_refl) O) as B. destruct (write_buffer wr b (mkWs [] (r_off r) None)) as [[u|e| |] s1]; destruct B as (B1 & B2 & B3 & B4); try congruence.
  - apply G. split; assumption.
  - split; [split; cbn; auto|]. split; [reflexivity|]. split; discriminate.
Qed.

Lemma seek_sizes_bound sizes : forall left i, 0 <= left -> let (l, j) := seek_sizes sizes left i in 0 <= l /\ (j <= i + length sizes)%nat.
Proof.
  induction sizes as [|z r IH]; intros left i Hl; cbn [seek_sizes length]; [split; lia|]. destruct (left <? z) eqn:E; [split; lia|].
  specialize (IH (left - z) (S i) ltac:(lia)). destruct (seek_sizes r (left - z) (S i)). split; lia.
Qed.
Lemma extract_cases n : (exists f, ExtractFSNode n = Ok f) \/ (exists e, ExtractFSNode n = Err e).
Proof. destruct n as [p d|p b ls]; cbn [ExtractFSNode]; [eauto|]. destruct (FSNodeFromBytes_cases b) as [(fs & E)|(e & E)]; rewrite E; eauto. Qed.
Lemma data_cases n : (exists d, ReadUnixFSNodeData n = Ok d) \/ (exists e, ReadUnixFSNodeData n = Err e).
Proof. destruct n as [p d|p b ls]; cbn [ReadUnixFSNodeData]; [eauto|]. destruct (FSNodeFromBytes_cases b) as [(fs & E)|(e & E)]; rewrite E; [|eauto]. destruct (_ || _); eauto. Qed.
Lemma seek_walk_safe w root fuel : forall st left d, (forall c, fetch_child w root st = DNode c -> (weight c < fuel)%nat) -> (0 < fuel)%nat ->
  pos_ok root st -> 0 <= left -> data_ok d ->
  let '(x, st', d') := seek_walk fuel w root st left d in pos_ok root st' /\ data_ok d' /\ x <> Panic /\ x <> Fuel.
Proof.
  induction fuel as [|f IH]; intros st left d Hw H0 Hp Hl Hd; [lia|]. cbn [seek_walk].
  pose proof (fetch_spec w root st) as S. destruct (fetch_child w root st) as [|e|c| |] eqn:Ef; try contradiction; try (repeat split; try discriminate; try apply Hp; exact Hd).
  specialize (Hw c eq_refl). destruct (fetch_work w root st c Ef Hp) as (P1 & _). pose proof (weight_eq c) as Wc.
  destruct (node_links c) as [|l0 ls0] eqn:El.
  - destruct (data_cases c) as [(b & E)|(e & E)]; rewrite E; [|repeat split; try discriminate; try apply P1; exact Hd].
    apply IH; [|lia|exact P1|exact Hl|intros ? [= <-]; exact Hl]. intros c'. cbn [fetch_child]. rewrite El. cbn. discriminate.
  - destruct (extract_cases c) as [(fs & E)|(e & E)]; rewrite E; [|repeat split; try discriminate; try apply P1; exact Hd].
    destruct (_ =? _) eqn:En; [|repeat split; try discriminate; try apply P1; exact Hd].
    pose proof (seek_sizes_bound (d_blocksizes fs) left 0 Hl) as B. destruct (seek_sizes (d_blocksizes fs) left 0) as [l' i]. destruct B as (B1 & B2).
    assert (Hi : (i <= length (node_links c))%nat).
    { rewrite El. unfold NumChildren, zlen in En. lia. }
    apply IH; [|lia|split; [eapply chain_index; apply P1|exact Hi]|exact B1|exact Hd].
    intros c' Hc. cbn [fetch_child] in Hc. destruct (nth_error (node_links c) i) as [l|] eqn:Ei; [|discriminate].
    unfold dserv_get in Hc. destruct (_ && _); [|discriminate]. injection Hc as <-. apply nth_error_In in Ei. pose proof (sumw_in _ _ Ei) as X. rewrite El in X. lia.
Qed.
Lemma seek_start_safe w off r : sane r -> let '(z, e, r') := seek_start w off r in sane r' /\ r_root r' = r_root r /\ e <> Panic /\ e <> Fuel /\ (e = Ok tt -> z = off /\ 0 <= z).
Proof.
  intros Hs. pose proof Hs as [P D O]. unfold seek_start. destruct (off <? 0) eqn:E0; [repeat split; try discriminate; apply Hs|].
  destruct (off =? r_off r) eqn:E1; [repeat split; try discriminate; try apply Hs; lia|].
  destruct (off =? 0) eqn:E2; [repeat split; cbn; try discriminate; try lia; try constructor; intros ? ?; discriminate|].
  pose proof (seek_walk_safe w (r_root r) (walk_fuel (r_root r) []) [] off None) as H.
  specialize (H ltac:(cbn [fetch_child]; intros c [= <-]; unfold walk_fuel; lia) ltac:(unfold walk_fuel; lia) ltac:(split; constructor) ltac:(lia) ltac:(intros ? ?; discriminate)).
  destruct (seek_walk _ w (r_root r) [] off None) as [[x st] d]. destruct H as (H1 & H2 & H3 & H4).
  destruct x; try congruence; (split; [split; cbn; auto; lia|]); (split; [reflexivity|]); repeat split; try discriminate; lia.
Qed.
Lemma seek_safe w off wh r : sane r -> let '(z, e, r') := Seek w off wh r in sane r' /\ r_root r' = r_root r /\ e <> Panic /\ e <> Fuel /\ (e = Ok tt -> 0 <= z).
Proof.
  intros Hs. unfold Seek.
  assert (G : forall o, let '(z, e, r') := seek_start w o r in sane r' /\ r_root r' = r_root r /\ e <> Panic /\ e <> Fuel /\ (e = Ok tt -> 0 <= z)).
  { intros o. pose proof (seek_start_safe w o r Hs) as H. destruct (seek_start w o r) as [[z e] r']. destruct H as (H1 & H2 & H3 & H4 & H5). split; [exact H1|]. split; [exact H2|]. split; [exact H3|]. split; [exact H4|]. intros E. now apply H5. }
  destruct (wh =? 0); [apply G|]. destruct (wh =? 1).
  - destruct (off =? 0); [|apply G]. split; [exact Hs|]. repeat split; try discriminate. intros _. apply Hs.
  - destruct (wh =? 2); [apply G|]. split; [exact Hs|]. repeat split; discriminate.
Qed.

(** ** All calls *)

Lemma step_safe w op r : sane r -> exists o r', reader_step w op r = Some (o, r') /\ sane r' /\ contract op o.
Proof.
  intros Hs. destruct op as [k|off wh|]; cbn [reader_step].
  - pose proof (read_safe w k r Hs) as H. destruct (CtxReadFull w k r) as [[m e] r']. destruct H as (H1 & H2 & H3 & H4 & H5).
    destruct e as [[]|x| |]; try contradiction; cbn [obs_err]; eexists _, _; (split; [reflexivity|]); (split; [exact H1|]); cbn [contract]; unfold zlen in *; repeat split; try discriminate; lia.
  - pose proof (seek_safe w off wh r Hs) as H. destruct (Seek w off wh r) as [[z e] r']. destruct H as (H1 & H2 & H3 & H4 & H5).
    destruct e as [[]|x| |]; try congruence; cbn [obs_err]; eexists _, _; (split; [reflexivity|]); (split; [exact H1|]); cbn [contract]; split; auto; discriminate.
  - pose proof (copy_safe w good_writer r Hs) as H. destruct (WriteTo w good_writer r) as [[m e] r']. destruct H as (H1 & H2 & H3 & H4).
    destruct e as [[]|x| |]; try congruence; cbn [obs_err]; eexists _, _; (split; [reflexivity|]); (split; [exact H1|]); reflexivity.
Qed.
Lemma run_safe ops : forall r, sane r -> exists t r', reader_run ops r = Some (t, r') /\ sane r' /\ map fst t = map snd ops /\ Forall (fun x => contract (fst x) (snd x)) t.
Proof.
  induction ops as [|[w op] ops IH]; intros r Hs; cbn [reader_run]; [exists [], r; auto|].
  destruct (step_safe w op r Hs) as (o & r1 & -> & H1 & Hc). destruct (IH r1 H1) as (t & r2 & -> & H2 & Hm & Hf).
  exists ((op, o) :: t), r2. split; [reflexivity|]. split; [exact H2|]. split; [cbn; now rewrite Hm|]. constructor; assumption.
Qed.
Lemma new_sane w n r : NewDagReader w n = Ok r -> sane r.
Proof. intros H. destruct (new_reader_shape _ _ _ H) as (H1 & H2 & H3). split; rewrite ?H1, ?H2, ?H3; [split; constructor|intros ? ?; discriminate|lia]. Qed.
Lemma any_safe w0 root r ops : NewDagReader w0 root = Ok r ->
  exists t r', reader_run ops r = Some (t, r') /\ map fst t = map snd ops /\ Forall (fun x => contract (fst x) (snd x)) t.
Proof. intros H. destruct (run_safe ops r (new_sane _ _ _ H)) as (t & r' & H1 & _ & H2 & H3). eauto. Qed.

Lemma ended_read w k r : ended r -> reader_step w (OpRead k) r = Some (([], 0, Some EEOF), r).
Proof.
  intros ((n & Hst) & Hd). cbn [reader_step]. unfold CtxReadFull. rewrite Hd. unfold walk_fuel. cbn [iterate]. rewrite Hst. cbn [fetch_child].
  rewrite (proj2 (nth_error_None (node_links n) (length (node_links n))) (le_n _)). cbn [next_up]. unfold next_index.
  replace (S (length (node_links n)) <=? length (node_links n))%nat with false by (symmetry; apply Nat.leb_gt; lia).
  rewrite Nat.eqb_refl. cbn [read_end obs_err rs_out rs_off rs_data]. rewrite <- Hst, <- Hd. destruct r; reflexivity.
Qed.
Lemma eof_stays w0 root r ops t r1 w k m z r2 : NewDagReader w0 root = Ok r -> reader_run ops r = Some (t, r1) ->
  reader_step w (OpRead k) r1 = Some ((m, z, Some EEOF), r2) ->
  forall ks, reader_run (map (fun x => (fst x, OpRead (snd x))) ks) r2 = Some (map (fun x => (OpRead (snd x), ([], 0, Some EEOF))) ks, r2).
Proof.
  intros H Hr Hs. destruct (run_safe ops r (new_sane _ _ _ H)) as (t' & r' & E & Hsn & _). rewrite E in Hr. injection Hr as -> ->.
  assert (He : ended r2).
  { cbn [reader_step] in Hs. pose proof (read_safe w k r1 Hsn) as R. destruct (CtxReadFull w k r1) as [[m' e] r']. destruct R as (_ & _ & _ & _ & R).
    destruct e as [[]|x| |]; cbn [obs_err] in Hs; try discriminate. injection Hs as _ _ -> ->. now apply R. }
  induction ks as [|[w' k'] ks IH]; cbn [map reader_run fst snd]; [reflexivity|]. rewrite (ended_read w' k' r2 He), IH. reflexivity.
Qed.
