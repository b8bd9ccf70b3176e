(** The reader with missing blocks. *)
From Verif Require Import Base Pb PbProofs FSNode FSNodeProofs Dag DagProofs SpecFile Reader SpecReader ReaderRun ReaderProofs ReaderProofs2 SpecLocal LocalRun.

(** ** Where the walker is *)

Lemma block_trans a lo hi n : block_at a lo hi n -> forall lo' hi' m, block_at n lo' hi' m -> block_at a (lo + lo') (lo + hi') m.
Proof.
  induction 1 as [n pre l post bs d E HF Ht|n pre l post bs lo hi m E HF Hb IH]; intros lo' hi' m' H.
  - eapply ba_below; eassumption.
  - rewrite <- !Z.add_assoc. eapply ba_below; try eassumption. now apply IH.
Qed.

Lemma trees_det ls : forall bs bs', Forall2 tree_bytes ls bs -> Forall2 tree_bytes ls bs' -> bs = bs'.
Proof.
  induction ls as [|n ls IH]; intros bs bs' H H'; inversion H; inversion H'; subst; [reflexivity|]. f_equal; [eapply tree_bytes_det; eassumption|now apply IH].
Qed.

(** The node of a frame within the file. *)
Lemma frame_block root content : tree_bytes root content -> forall st, chain root st -> forall n i r br, st = (n, i) :: r -> frames r br ->
  exists pre dn, tree_bytes n dn /\ content = pre ++ dn ++ br /\ (n = root /\ pre = [] \/ block_at root (zlen pre) (zlen pre + zlen dn) n).
Proof.
  intros Ht st HC. induction HC as [|j|n i r l j HC IH Hn]; intros n' i' r' br E HF; [discriminate| |].
  - injection E as <- <- <-. inversion HF; subst. exists [], content. rewrite app_nil_r. auto.
  - injection E as <- <- <-. apply frames_inv in HF as (bs & b0 & -> & Hi & H2 & H3). destruct (IH n i r b0 eq_refl H3) as (pre & dn & T & Ec & Hb).
    inversion T as [? ? HL|? bsn Hne HFn]; subst. { apply leaf_bytes_links in HL. rewrite HL in Hn. destruct i; discriminate. }
    assert (Es : node_links n = firstn i (node_links n) ++ l :: skipn (S i) (node_links n)) by (rewrite <- (skipn_nth _ _ _ Hn); now rewrite firstn_skipn).
    pose proof HFn as HFn'. rewrite Es, map_app in HFn'. cbn [map] in HFn'. apply Forall2_app_inv_l in HFn' as (b1 & b2 & F1 & F2 & ->). inversion F2 as [|? d ? b3 F3 F4]; subst.
    rewrite (trees_det _ _ _ F4 H2) in *. rewrite concat_app in *. cbn [concat] in *. exists (pre ++ concat b1), d. split; [exact F3|]. split; [now rewrite <- !app_assoc|]. right.
    pose proof (ba_child n _ l _ b1 d Es F1 F3) as B. rewrite zlen_app. destruct Hb as [[-> ->]|Hb]; [exact B|]. rewrite <- !Z.add_assoc. eapply block_trans; eassumption.
Qed.

(** The child that the walker fetches next. *)
Lemma next_block root content n i r l b : tree_bytes root content -> chain root ((n, i) :: r) -> rest root ((n, i) :: r) b -> nth_error (node_links n) i = Some l ->
  exists pre d br, content = pre ++ b /\ b = d ++ br /\ frames ((n, i) :: r) br /\ tree_bytes (lto l) d /\ block_at root (zlen pre) (zlen pre + zlen d) (lto l).
Proof.
  intros Ht HC HR Hn. apply rest_inv in HR as (bs & b0 & -> & Hi & H2 & H3). rewrite (skipn_nth _ _ _ Hn) in H2. cbn [map] in H2. inversion H2 as [|? d ? bs' F1 F2]; subst.
  assert (HF : frames ((n, i) :: r) (concat bs' ++ b0)) by (constructor; auto; apply nth_error_Some; congruence).
  destruct (frame_block root content Ht _ (chain_cons root n i r l O HC Hn) (lto l) O ((n, i) :: r) _ eq_refl HF) as (pre & dn & T & Ec & Hb).
  rewrite (tree_bytes_det _ _ _ T F1) in *. exists pre, d, (concat bs' ++ b0). cbn [concat]. rewrite <- !app_assoc. split; [now rewrite Ec|]. split; [reflexivity|]. split; [exact HF|]. split; [exact F1|].
  destruct Hb as [[E ->]|Hb]; [|exact Hb]. exfalso. revert E. clear - HC Hn.
  intros E. assert (G : (swork root ((lto l, O) :: (n, i) :: r) <= weight root)%nat) by (apply chain_work; constructor; assumption).
  assert (W : (weight (lto l) < weight root)%nat).
  { clear G E. remember ((n, i) :: r) as st. revert n i r l Heqst Hn. induction HC as [|j|n' i' r' l' j HC IH Hn']; intros n i r l Es Hn; [discriminate| |]; injection Es as <- <- <-.
    - rewrite (weight_eq root). pose proof (sumw_in l (node_links root) (nth_error_In _ _ Hn)). lia.
    - specialize (IH _ _ _ _ eq_refl Hn'). rewrite (weight_eq (lto l')) in IH. pose proof (sumw_in l (node_links (lto l')) (nth_error_In _ _ Hn)). lia. }
  rewrite E in W. lia.
Qed.

(** A fetch that fails. *)
Lemma stuck_lacks w root content st b : tree_bytes root content -> chain root st -> rest root st b -> fetch_child w root st = DErr EFetch ->
  lacks w root (fun lo hi => lo = zlen content - zlen b) /\ zlen b <= zlen content.
Proof.
  intros Ht HC HR Hf. pose proof (fetch_spec w root st) as S. rewrite Hf in S. destruct S as (_ & n & i & r & l & -> & Hn & Hg).
  destruct (next_block root content n i r l b Ht HC HR Hn) as (pre & d & br & -> & _ & _ & _ & B). rewrite zlen_app. pose proof (zlen_nonneg pre). split; [|lia].
  exists (zlen pre), (zlen pre + zlen d), (lto l). split; [exact B|]. split; [lia|exact Hg].
Qed.

(** ** Offsets *)

Section Keep.
  Context {T : Type} (w : world) (root : node) (visit : node -> T -> res bool * T) (I J : T -> Prop) (bad : res bool -> Prop).
  Hypothesis Hv : forall n s, I s -> let (x, s') := visit n s in J s' /\ (~ bad x -> I s') /\ (x = Ok false -> ~ bad x).
  Hypothesis HIJ : forall s, I s -> J s.
  Lemma iterate_keep fuel : forall st s, I s -> let '(x, _, s') := iterate w root visit fuel st s in J s' /\ (~ bad x -> I s').
  Proof.
    induction fuel as [|f IH]; intros st s Hs; cbn [iterate]; [auto|]. destruct (fetch_child w root st) as [|e|n| |]; auto.
    - destruct (next_up st) as [[|] st']; [now apply IH|auto].
    - pose proof (Hv n s Hs) as V. destruct (visit n s) as [x s']. destruct V as (V1 & V2 & V3). destruct x as [[|]|e| |]; auto. apply IH. apply V2. now apply V3.
  Qed.
End Keep.

Lemma read_buffer_off b s : rs_off (read_buffer b s) - zlen (rs_out (read_buffer b s)) = rs_off s - zlen (rs_out s).
Proof. unfold read_buffer. destruct (take_buffer (rs_room s) b) as [m d]. cbn. rewrite zlen_app. lia. Qed.

Lemma read_off w k r : let '(m, _, r') := CtxReadFull w k r in r_off r' = r_off r + zlen m.
Proof.
  unfold CtxReadFull.
  assert (G : forall s, rs_off s - zlen (rs_out s) = r_off r -> let '(m, _, r') := (let '(x, st, s') := iterate w (r_root r) read_visit (walk_fuel (r_root r) (r_stack r)) (r_stack r) s in
    (rs_out s', read_end x, mkReader (r_root r) (r_size r) (rs_off s') st (rs_data s'))) in r_off r' = r_off r + zlen m).
  { intros s Hs. pose proof (iterate_keep w (r_root r) read_visit (fun s => rs_off s - zlen (rs_out s) = r_off r) (fun s => rs_off s - zlen (rs_out s) = r_off r) (fun _ => False)) as K.
    specialize (K ltac:(intros n t Ht; unfold read_visit; destruct (node_links n); [|auto]; destruct (ReadUnixFSNodeData n) as [d|e| |]; auto; cbv zeta; rewrite read_buffer_off; auto) ltac:(auto) (walk_fuel (r_root r) (r_stack r)) (r_stack r) s Hs).
    destruct (iterate w (r_root r) read_visit (walk_fuel (r_root r) (r_stack r)) (r_stack r) s) as [[x st] s']. cbn [r_off]. destruct K as [K _]. lia. }
  destruct (r_data r) as [b|]; [|apply G; cbn [rs_off rs_out]; change (zlen (@nil byte)) with 0; lia]. pose proof (read_buffer_off b (mkRs [] k (r_off r) None)) as B. cbn [rs_off rs_out] in B. change (zlen (@nil byte)) with 0 in B.
  destruct (rs_room (read_buffer b (mkRs [] k (r_off r) None)) =? 0)%nat; [cbn [r_off]; lia|]. apply G. lia.
Qed.

Lemma write_buffer_off wr b s o0 : ws_off s - zlen (ws_out s) = o0 -> let (x, s') := write_buffer wr b s in
  (match x with Ok _ => ws_off s' - zlen (ws_out s') = o0 | Err e => e = EWrite | _ => False end) /\ ws_off s' - zlen (ws_out s') <= o0 /\ ws_off s <= ws_off s'.
Proof.
  intros Hs. unfold write_buffer. destruct (br_rest b) as [|x xs]; [cbn; lia|]. destruct (wr (ws_out s) (x :: xs)) as [m0 fail]. cbv zeta.
  destruct (fail || _) eqn:Ef; cbn [ws_off ws_out]; rewrite zlen_app; set (m := Nat.min m0 (length (x :: xs))); pose proof (zlen_nonneg (firstn m (x :: xs))).
  - split; [reflexivity|]. lia.
  - apply orb_false_iff in Ef as [_ Ef]. apply negb_false_iff, Nat.eqb_eq in Ef. fold m in Ef. assert (zlen (firstn m (x :: xs)) = Z.of_nat m) by (unfold zlen; rewrite firstn_length; lia). lia.
Qed.

Lemma copy_off w wr r : let '(m, e, r') := WriteTo w wr r in (e <> Err EWrite -> r_off r' = r_off r + zlen m) /\ r_off r <= r_off r' <= r_off r + zlen m.
Proof.
  unfold WriteTo.
  assert (G : forall s, ws_off s - zlen (ws_out s) = r_off r -> r_off r <= ws_off s -> let '(m, e, r') := (let '(x, st, s') := iterate w (r_root r) (write_visit wr) (walk_fuel (r_root r) (r_stack r)) (r_stack r) s in
    (ws_out s', write_end x, mkReader (r_root r) (r_size r) (ws_off s') st (ws_data s'))) in (e <> Err EWrite -> r_off r' = r_off r + zlen m) /\ r_off r <= r_off r' <= r_off r + zlen m).
  { intros s Hs Hs'. pose proof (iterate_keep w (r_root r) (write_visit wr) (fun s => ws_off s - zlen (ws_out s) = r_off r /\ r_off r <= ws_off s) (fun s => ws_off s - zlen (ws_out s) <= r_off r <= ws_off s) (fun x => x = Err EWrite)) as K.
    match type of K with ?A -> _ => assert (HA : A) end.
    { intros n t Ht. unfold write_visit. destruct (node_links n); [|split; [lia|split; [auto|discriminate]]]. destruct (ReadUnixFSNodeData n) as [d|e| |]; try (split; [lia|split; [auto|discriminate]]).
      pose proof (write_buffer_off wr (d, 0) t (r_off r) (proj1 Ht)) as B. destruct (write_buffer wr (d, 0) t) as [x s']. destruct B as (B1 & B2 & B3).
      destruct x as [u|e| |]; try contradiction; [split; [lia|split; [lia|discriminate]]|]. subst e. split; [lia|]. split; [congruence|discriminate]. }
    specialize (K HA ltac:(intros; cbn in *; lia) (walk_fuel (r_root r) (r_stack r)) (r_stack r) s (conj Hs Hs')).
    destruct (iterate w (r_root r) (write_visit wr) (walk_fuel (r_root r) (r_stack r)) (r_stack r) s) as [[x st] s']. cbn [r_off]. destruct K as [K1 K2]. split; [|lia].
    intros He. assert (x <> Err EWrite) by (intros ->; now apply He). specialize (K2 H). lia. }
  destruct (r_data r) as [b|]; [|apply G; cbn [ws_off ws_out]; change (zlen (@nil byte)) with 0; lia]. pose proof (write_buffer_off wr b (mkWs [] (r_off r) None) (r_off r) ltac:(cbn [ws_off ws_out]; change (zlen (@nil byte)) with 0; lia)) as B. cbn [ws_off] in B.
  destruct (write_buffer wr b (mkWs [] (r_off r) None)) as [x s]. destruct B as (B1 & B2 & B3). destruct x as [u|e| |]; try contradiction; [apply G; lia|]. subst e. cbn [r_off]. split; [congruence|lia].
Qed.

(** ** One call *)

Definition set_off (q : Z) (r : reader) : reader := mkReader (r_root r) (r_size r) q (r_stack r) (r_data r).
(** The reader reads at [q] and reports [o]. *)
Definition skewed (content : bytes) (q o : Z) (r : reader) : Prop := reader_at content q (set_off q r) /\ r_off r = o /\ 0 <= o <= q.

Lemma same_set_off q r : same_but_off r (set_off q r).
Proof. unfold same_but_off. cbn. auto. Qed.
Lemma set_same content q r r' : reader_at content q r' -> same_but_off r r' -> reader_at content q (set_off q r).
Proof. intros [A B C D E] (H1 & H2 & H3 & H4). split; cbn [set_off r_off r_root r_stack r_data]; rewrite ?H1, ?H3, ?H4; auto. Qed.

Lemma prefix_len content q b2 (m : bytes) : 0 <= q -> skipn (Z.to_nat q) content = m ++ b2 -> zlen content - zlen b2 = Z.min q (zlen content) + zlen m \/ (m = [] /\ b2 = [] /\ zlen content < q).
Proof.
  intros Hq E. apply (f_equal (@length _)) in E. rewrite skipn_length, app_length in E. unfold zlen. destruct (Z_lt_dec (Z.of_nat (length content)) q); [right|left; lia].
  assert (length m = 0 /\ length b2 = 0)%nat as [H1 H2] by lia. destruct m, b2; try discriminate. auto.
Qed.

Lemma skew_read w content q o k r : skewed content q o r -> tree_bytes (r_root r) content ->
  exists ob r' q' o', lstep w (LRead k) r = Some (ob, r') /\ skewed content q' o' r' /\ r_root r' = r_root r /\ r_size r' = r_size r /\ skew_step (r_root r) content w (q, o) (LRead k) ob (q', o').
Proof.
  intros (Hr & Ho & Ho') Ht. destruct (read_sim w k r (set_off q r) (same_set_off q r)) as [S1 S2]. pose proof (read_off w k r) as Hoff. pose proof (CtxReadFull_spec w content q k _ Hr) as S.
  cbn [lstep]. destruct (CtxReadFull w k r) as [[m e] r1], (CtxReadFull w k (set_off q r)) as [[m' e'] r2]. cbn [fst snd] in S1, S2. injection S1 as <- <-.
  destruct S as (R1 & R2 & R3 & R4 & R5 & R6). cbn [set_off r_root r_size] in R1, R2. pose proof (zlen_nonneg m) as Hm.
  assert (Hsk : skewed content (q + zlen m) (o + zlen m) r1) by (split; [eapply set_same; eassumption|]; split; [lia|lia]).
  assert (E1 : r_root r1 = r_root r) by (destruct S2 as (-> & _); exact R1). assert (E2 : r_size r1 = r_size r) by (destruct S2 as (_ & -> & _); exact R2).
  assert (Hrd : forall n, (length m <= n)%nat -> (length m = n \/ m = skipn (Z.to_nat q) content) -> read_at content q n = m).
  { intros n Hn [<-|E]; [symmetry; exact R4|]. unfold read_at. rewrite <- E. now apply firstn_all2. }
  destruct e as [u|e| |]; cbn [obs_err]; try contradiction.
  - eexists _, r1, _, _. split; [reflexivity|]. split; [exact Hsk|]. split; [exact E1|]. split; [exact E2|].
    replace (o + zlen m) with (o + (q + zlen m - q)) by lia. apply sk_read. rewrite <- (Hrd k R5 (or_introl R6)). constructor; [now left| |discriminate]. rewrite (Hrd k R5 (or_introl R6)). unfold zlen. lia.
  - eexists _, r1, _, _. split; [reflexivity|]. split; [exact Hsk|]. split; [exact E1|]. split; [exact E2|].
    destruct (match e with EEOF => true | _ => false end) eqn:Ee.
    + destruct e; try discriminate. destruct R6 as [R6 R7]. replace (o + zlen m) with (o + (q + zlen m - q)) by lia. apply sk_read. rewrite <- (Hrd k R5 (or_intror R6)) at 1 2 3. constructor; [now right|auto|].
      intros _. rewrite (Hrd k R5 (or_intror R6)). unfold zlen. lia.
    + assert (R7 : e = EFetch /\ (length m < k \/ k = 0)%nat /\ fetch_child w (r_root r2) (r_stack r2) = DErr EFetch /\ r_data r2 = None) by (destruct e; try discriminate; tauto).
      destruct R7 as (-> & R7 & R8 & R9). destruct R3 as [_ Hq (b2 & HR & Hc) HC _]. rewrite R9 in Hc. cbn [obr app] in Hc. rewrite R1 in *.
      destruct (stuck_lacks w (r_root r) content _ _ Ht HC HR R8) as [HL Hlen].
      pose proof (sk_read_lacks (r_root r) content w q o k (length m)) as St. cbv zeta in St. rewrite (Hrd (length m) (le_n _) (or_introl eq_refl)) in St. apply St; [lia|reflexivity|].
      destruct HL as (lo & hi & x & B1 & B2 & B3). exists lo, hi, x. split; [exact B1|]. split; [|exact B3]. cbv beta in *. subst lo.
      apply (f_equal (@length _)) in Hc. apply (f_equal (@length _)) in R4. rewrite firstn_length, skipn_length in R4. rewrite skipn_length in Hc. unfold zlen in *. lia.
Qed.

Lemma skew_copy w content q o wr r : skewed content q o r -> tree_bytes (r_root r) content ->
  exists ob r' q' o', lstep w (LCopy wr) r = Some (ob, r') /\ skewed content q' o' r' /\ r_root r' = r_root r /\ r_size r' = r_size r /\ skew_step (r_root r) content w (q, o) (LCopy wr) ob (q', o').
Proof.
  intros (Hr & Ho & Ho') Ht. destruct (copy_sim w wr r (set_off q r) (same_set_off q r)) as [S1 S2]. pose proof (copy_off w wr r) as Hoff. pose proof (WriteTo_spec w wr content q _ Hr) as S.
  cbn [lstep]. destruct (WriteTo w wr r) as [[m e] r1], (WriteTo w wr (set_off q r)) as [[m' e'] r2]. cbn [fst snd] in S1, S2. injection S1 as <- <-.
  destruct S as (R1 & R2 & R3 & R4 & R5). cbn [set_off r_root r_size] in R1, R2. pose proof (zlen_nonneg m) as Hm. destruct Hoff as [Hoff1 Hoff2].
  assert (Hsk : forall o', r_off r1 = o' -> skewed content (q + zlen m) o' r1).
  { intros o' <-. split; [|split; [reflexivity|lia]]. destruct S2 as (Q1 & Q2 & Q3 & Q4). unfold set_off. rewrite Q1, Q2, Q3, Q4. exact R3. }
  assert (E1 : r_root r1 = r_root r) by (destruct S2 as (-> & _); exact R1). assert (E2 : r_size r1 = r_size r) by (destruct S2 as (_ & -> & _); exact R2).
  destruct e as [u|e| |]; cbn [obs_err]; try contradiction.
  - destruct R5 as [R5 _]. specialize (Hoff1 ltac:(discriminate)). eexists _, r1, _, _. split; [reflexivity|]. split; [exact (Hsk _ Hoff1)|]. split; [exact E1|]. split; [exact E2|].
    replace (r_off r + zlen m) with (o + (q + zlen m - q)) by lia. apply sk_copy. rewrite R5. constructor.
  - eexists _, r1, _, _. split; [reflexivity|]. split; [exact (Hsk _ eq_refl)|]. split; [exact E1|]. split; [exact E2|]. destruct R5 as [(-> & _ & _ & R6 & R7)|(-> & R5)].
    + rewrite (Hoff1 ltac:(discriminate)), Ho. destruct R3 as [_ Hq (b2 & HR & Hc) HC _]. cbn [r_root r_stack r_data] in *. rewrite R7 in Hc. cbn [obr app] in Hc. rewrite R1 in *.
      destruct (stuck_lacks w (r_root r) content _ _ Ht HC HR R6) as [HL Hlen].
      pose proof (sk_copy_lacks (r_root r) content w q o wr (length m)) as St. cbv zeta in St. replace (read_at content q (length m)) with m in St by exact R4. apply St; [reflexivity|].
      destruct HL as (lo & hi & x & B1 & B2 & B3). exists lo, hi, x. split; [exact B1|]. split; [|exact B3]. cbv beta in *. subst lo.
      apply (f_equal (@length _)) in Hc. apply (f_equal (@length _)) in R4. rewrite firstn_length, skipn_length in R4. rewrite skipn_length in Hc. unfold zlen in *. lia.
    + pose proof (sk_copy_fails (r_root r) content w q o wr (length m) (r_off r1)) as St. cbv zeta in St. replace (read_at content q (length m)) with m in St by exact R4. apply St; [exact R5|lia].
Qed.

(** ** Seek fetches all blocks that hold the byte *)

Lemma block_bounds n lo hi m : block_at n lo hi m -> forall d, tree_bytes n d -> 0 <= lo <= hi /\ hi <= zlen d.
Proof.
  assert (G : forall n pre l post bs d, node_links n = pre ++ l :: post -> Forall2 tree_bytes (map lto pre) bs -> tree_bytes n d -> exists x, tree_bytes (lto l) x /\ zlen (concat bs) + zlen x <= zlen d).
  { clear. intros n pre l post bs d E HF T. inversion T as [? ? HL|? bsn Hne HFn]; subst. { apply leaf_bytes_links in HL. rewrite HL in E. destruct pre; discriminate. }
    rewrite E, map_app in HFn. cbn [map] in HFn. apply Forall2_app_inv_l in HFn as (b1 & b2 & F1 & F2 & ->). inversion F2 as [|? x ? b3 F3 F4]; subst. rewrite (trees_det _ _ _ HF F1). exists x. split; [exact F3|].
    rewrite concat_app, zlen_app. cbn [concat]. rewrite zlen_app. pose proof (zlen_nonneg (concat b3)). lia. }
  induction 1 as [n pre l post bs d E HF Ht|n pre l post bs lo hi m E HF Hb IH]; intros dn T; destruct (G _ _ _ _ _ _ E HF T) as (x & Tx & Hx); pose proof (zlen_nonneg (concat bs)).
  - rewrite (tree_bytes_det _ _ _ Tx Ht) in Hx. pose proof (zlen_nonneg d). lia.
  - destruct (IH x Tx). lia.
Qed.

Lemma cut_unique (t : Z) : forall a x b a' x' b' : list bytes, a ++ x = a' ++ x' -> match x with c :: _ => zlen (concat a) <= t < zlen (concat a) + zlen c | [] => False end ->
  match x' with c :: _ => zlen (concat a') <= t < zlen (concat a') + zlen c | [] => False end -> b = b' -> a = a' /\ x = x'.
Proof.
  intros a. revert t. induction a as [|y a IH]; intros t x b [|y' a'] x' b' E H H' _; cbn [app] in E.
  - auto.
  - subst x. exfalso. cbn [concat] in *. rewrite zlen_app in H'. change (zlen (@nil byte)) with 0 in H. pose proof (zlen_nonneg (concat a')). destruct x'; [exact H'|lia].
  - subst x'. exfalso. cbn [concat] in *. rewrite zlen_app in H. change (zlen (@nil byte)) with 0 in H'. pose proof (zlen_nonneg (concat a)). destruct x; [exact H|lia].
  - injection E as <- E. cbn [concat] in *. rewrite zlen_app in *. destruct (IH (t - zlen y) x b a' x' b E) as [-> ->]; auto; [destruct x|destruct x']; auto; lia.
Qed.

Lemma seek_blocked w root m c lo hi : block_at c lo hi m -> dserv_get w m <> Ok m -> forall fuel st left cs, (weight c <= fuel)%nat ->
  (st = [] /\ c = root \/ exists n i r l, st = (n, i) :: r /\ nth_error (node_links n) i = Some l /\ c = lto l) ->
  file_dag c cs -> zlen (concat cs) < 18446744073709551616 -> lo <= left < hi -> fst (fst (seek_walk fuel w root st left None)) = Err EFetch.
Proof.
  intros Hb Hm. assert (Get : forall n, dserv_get w n = Ok n \/ dserv_get w n = Err EFetch) by (intros n; unfold dserv_get; destruct (_ && _); auto).
  assert (Step : forall c lpre l lpost bs d fuel st left cs, (weight c <= fuel)%nat ->
    (st = [] /\ c = root \/ exists n i r l, st = (n, i) :: r /\ nth_error (node_links n) i = Some l /\ c = lto l) ->
    node_links c = lpre ++ l :: lpost -> Forall2 tree_bytes (map lto lpre) bs -> tree_bytes (lto l) d -> file_dag c cs -> zlen (concat cs) < 18446744073709551616 ->
    zlen (concat bs) <= left < zlen (concat bs) + zlen d ->
    fst (fst (seek_walk fuel w root st left None)) = Err EFetch \/
    exists f cs', fuel = S f /\ (weight (lto l) <= f)%nat /\ file_dag (lto l) cs' /\ zlen (concat cs') < 18446744073709551616 /\ nth_error (node_links c) (length lpre) = Some l /\
      fst (fst (seek_walk fuel w root st left None)) = fst (fst (seek_walk f w root ((c, length lpre) :: st) (left - zlen (concat bs)) None))).
  { clear Hb Hm lo hi m c. intros c lpre l lpost bs d fuel st left cs Hw Htg El HFl Htl Hfd Hlen Hl. destruct fuel as [|f]; [rewrite weight_eq in Hw; lia|]. cbn [seek_walk].
    assert (Hf : fetch_child w root st = DNode c \/ fetch_child w root st = DErr EFetch).
    { destruct Htg as [[-> ->]|(n & i & r & l0 & -> & Hn & ->)]; [now left|]. cbn [fetch_child]. rewrite Hn. destruct (Get (lto l0)) as [->| ->]; auto. }
    destruct Hf as [->| ->]; [|now left]. right. pose proof (zlen_nonneg (concat bs)) as Hbs.
    destruct Hfd as [p d0|p b fs Hd Ht Hb Hs|p b fs ls css Hls Hu Hd Ht Hda HF Hb Hs]; try (cbn in El; destruct lpre; discriminate).
    cbn [node_links] in *. assert (Hli : In l ls) by (rewrite El; apply in_or_app; right; now left).
    assert (Emod : d_blocksizes fs = map (fun cs => zlen (concat cs)) css).
    { rewrite Hb. apply map_ext_in. intros x Hx. apply mod64_exact. pose proof (concat_len_in css x Hx). pose proof (zlen_nonneg (concat x)). lia. }
    pose proof (Forall2_len _ _ _ HF) as HL. rewrite map_length in HL. pose proof (Forall2_tree ls css HF) as HT. pose proof HF as HF0. rewrite El, map_app in HF0. cbn [map] in HF0.
    apply Forall2_app_inv_l in HF0 as (css1 & css2 & F1 & F2 & Ecss). inversion F2 as [|? cl ? css3 F3 F4]; subst css2. rewrite <- (app_nil_r ls) in El. 
    assert (Ebs : bs = map (@concat byte) css1) by (eapply trees_det; [exact HFl|]; apply Forall2_tree; exact F1).
    assert (Ed : d = concat cl) by (eapply tree_bytes_det; [exact Htl|now apply file_dag_tree]). rewrite app_nil_r in El.
    pose proof (seek_sizes_spec css left 0 ltac:(lia)) as S. destruct (seek_sizes (map (fun cs => zlen (concat cs)) css) left 0) as [left' i] eqn:Es.
    destruct S as (pre & post & E1 & Ei & E2 & Hl' & Hpost). cbn in Ei. subst i.
    assert (Hc : map (@concat byte) pre = map (@concat byte) css1 /\ map (@concat byte) post = map (@concat byte) (cl :: css3)).
    { apply (cut_unique left (map (@concat byte) pre) (map (@concat byte) post) [] (map (@concat byte) css1) (map (@concat byte) (cl :: css3)) []); [rewrite <- !map_app; exact (f_equal _ (eq_trans (eq_sym E1) Ecss))| | |reflexivity].
      - destruct post as [|ci post]; [|cbn [map]; rewrite <- concat_concat; lia]. exfalso. rewrite app_nil_r in E1. subst pre. rewrite Ecss, !concat_app, zlen_app in E2. cbn [concat] in E2. rewrite concat_app, zlen_app in E2.
        rewrite Ebs, <- concat_concat in Hl. subst d. pose proof (zlen_nonneg (concat (concat css3))). lia.
      - cbn [map]. rewrite <- Ebs, <- Ed. exact Hl. }
    destruct Hc as [Hc _]. assert (Elp : length pre = length lpre). { apply (f_equal (@length _)) in Hc. rewrite !map_length in Hc. apply Forall2_len in F1. rewrite map_length in F1. exact (eq_trans Hc (eq_sym F1)). }
    assert (El' : left' = left - zlen (concat bs)) by (rewrite concat_concat, Hc, <- Ebs in E2; lia).
    exists f, cl. split; [reflexivity|]. split; [pose proof (sumw_in l ls Hli); rewrite weight_eq in Hw; cbn [node_links] in Hw; lia|]. split; [exact F3|].
    split; [pose proof (concat_len_in css cl ltac:(rewrite Ecss; apply in_or_app; right; now left)); lia|]. split; [rewrite El, nth_error_app2, Nat.sub_diag by lia; reflexivity|].
    destruct ls as [|lx lsx]; [destruct lpre; discriminate|]. cbn [ExtractFSNode]. rewrite Hd. unfold NumChildren. replace (zlen (d_blocksizes fs) =? zlen (lx :: lsx)) with true by (symmetry; apply Z.eqb_eq; rewrite Emod; unfold zlen at 1 3; rewrite map_length; f_equal; symmetry; exact HL).
    rewrite Emod, Es, <- Elp, <- El'. reflexivity. }
  induction Hb as [n pre l post bs d El HF Ht|n pre l post bs lo hi m El HF Hb IH]; intros fuel st left cs Hw Htg Hfd Hlen Hl.
  - destruct (Step n pre l post bs d fuel st left cs Hw Htg El HF Ht Hfd Hlen Hl) as [E|(f & cs' & -> & Hwf & _ & _ & Hn & ->)]; [exact E|]. destruct f as [|f]; [rewrite weight_eq in Hwf; lia|]. cbn [seek_walk fetch_child]. rewrite Hn.
    destruct (Get (lto l)) as [G|G]; [contradiction|]. rewrite G. reflexivity.
  - assert (Hd : exists d, tree_bytes (lto l) d /\ 0 <= lo /\ hi <= zlen d).
    { inversion Hfd; subst; cbn [node_links] in El; try (destruct pre; discriminate). match goal with F : Forall2 file_dag _ _ |- _ => rewrite El, map_app in F; cbn [map] in F; apply Forall2_app_inv_l in F as (? & ? & _ & F & _); inversion F; subst end.
      eexists. assert (T : tree_bytes (lto l) (concat y)) by (apply file_dag_tree; eassumption). split; [exact T|]. pose proof (block_bounds _ _ _ _ Hb _ T). lia. }
    destruct Hd as (d & Ht & H0 & Hhi).
    destruct (Step n pre l post bs d fuel st left cs Hw Htg El HF Ht Hfd Hlen ltac:(lia)) as [E|(f & cs' & -> & Hwf & Hfd' & Hlen' & Hn & ->)]; [exact E|].
    apply (IH Hm f _ _ cs'); auto; [|lia]. right. eexists _, _, _, l. split; [reflexivity|]. split; [exact Hn|reflexivity].
Qed.

Lemma seek_stuck w content t r : file_content (r_root r) content -> zlen content < 9223372036854775808 -> 0 <= t -> t <> 0 -> t <> r_off r ->
  let '(z, e, r') := seek_start w t r in
  r_root r' = r_root r /\ r_size r' = r_size r /\
  match e with
  | Ok _ => z = t /\ skewed content t t r' /\ ~ lacks w (r_root r) (fun lo hi => lo <= t < hi)
  | Err e => e = EFetch /\ z = 0 /\ exists lo, skewed content lo 0 r' /\ lacks w (r_root r) (fun lo' hi => lo' = lo /\ lo' <= t < hi)
  | _ => False
  end.
Proof.
  intros Hf Hlen Ht Ht0 Hto. pose proof (seek_start_spec w t r content Hf Hlen Ht Hto) as S0. destruct Hf as (cs & Hfd & ->). unfold seek_start in *.
  replace (t <? 0) with false in * by lia. replace (t =? r_off r) with false in * by lia. replace (t =? 0) with false in * by lia.
  pose proof (seek_walk_spec w (r_root r) (walk_fuel (r_root r) []) [] t (r_root r) cs []) as S.
  destruct (seek_walk (walk_fuel (r_root r) []) w (r_root r) [] t None) as [[x st] d0] eqn:Esw.
  specialize (S ltac:(unfold walk_fuel; lia) ltac:(constructor) ltac:(left; auto) Hfd ltac:(lia) Ht ltac:(constructor) ltac:(congruence)).
  destruct x as [u|e| |]; try contradiction.
  - destruct S0 as (S1 & S2 & S3 & S4). split; [exact S1|]. split; [exact S2|]. split; [exact S3|]. split; [split; [exact S4|split; [reflexivity|lia]]|]. intros (lo & hi & m & B & Hin & Hm).
    pose proof (seek_blocked w (r_root r) m (r_root r) lo hi B Hm (walk_fuel (r_root r) []) [] t cs ltac:(unfold walk_fuel; lia) ltac:(left; auto) Hfd ltac:(lia) Hin) as Q. rewrite Esw in Q. discriminate.
  - cbn [r_root r_size]. split; [reflexivity|]. split; [reflexivity|]. destruct S as (-> & _ & -> & HC & Hfe & n & i & rr & l & br & d & left' & -> & Hn & Htl & HF & Hl & He).
    split; [reflexivity|]. split; [reflexivity|]. assert (HR : rest (r_root r) ((n, i) :: rr) (d ++ br)).
    { apply frames_inv in HF as (bs & b0 & -> & Hi & F1 & F2). change (d ++ concat bs ++ b0) with (d ++ (concat bs ++ b0)). rewrite app_assoc. change (d ++ concat bs) with (concat (d :: bs)). constructor; [lia| |exact F2].
      rewrite (skipn_nth _ _ _ Hn). constructor; assumption. }
    destruct (next_block _ _ n i rr l _ (file_dag_tree _ _ Hfd) HC HR Hn) as (pre & d' & br' & Ec & Eb & HF' & Ht' & B). pose proof (tree_bytes_det _ _ _ Htl Ht') as <-. apply app_inv_head in Eb as <-.
    rewrite Ec in He. rewrite !zlen_app in He. change (zlen (@nil byte)) with 0 in He. exists (zlen pre). split.
    + split; [|split; [reflexivity|pose proof (zlen_nonneg pre); lia]]. split; cbn [set_off r_off r_root r_stack r_data]; auto; [apply zlen_nonneg| |intros ? ?; discriminate].
      exists (d ++ br). split; [exact HR|]. cbn [obr app]. rewrite Ec. unfold zlen. rewrite Nat2Z.id, skipn_app, skipn_all, Nat.sub_diag. reflexivity.
    + pose proof (fetch_spec w (r_root r) ((n, i) :: rr)) as Q. rewrite Hfe in Q. destruct Q as (_ & n2 & i2 & r2 & l2 & E2 & Hn2 & Hg). injection E2 as <- <- <-. rewrite Hn in Hn2. injection Hn2 as <-.
      exists (zlen pre), (zlen pre + zlen d), (lto l). split; [exact B|]. split; [lia|exact Hg].
Qed.

Lemma skew_seek w content q o d wh r : skewed content q o r -> file_content (r_root r) content -> zlen content < 9223372036854775808 -> r_size r = zlen content -> q < 9223372036854775808 -> lop_ok (LSeek d wh) ->
  exists ob r' q' o', lstep w (LSeek d wh) r = Some (ob, r') /\ skewed content q' o' r' /\ r_root r' = r_root r /\ r_size r' = r_size r /\ skew_step (r_root r) content w (q, o) (LSeek d wh) ob (q', o').
Proof.
  intros Hk Hf Hl Hs Hq Hd. cbn [lop_ok] in Hd. pose proof Hk as (Hr & Eo & Ho). cbn [lstep].
  assert (G : forall t p, seek_target content o d wh = Some t -> (0 <= t < 9223372036854775808 /\ p = t \/ ~ 0 <= t < 9223372036854775808 /\ p < 0) ->
     exists ob r' q' o', (let '(n, e, r') := seek_start w p r in match obs_err e with Some e => Some (([], n, e), r') | None => None end) = Some (ob, r') /\
       skewed content q' o' r' /\ r_root r' = r_root r /\ r_size r' = r_size r /\ skew_step (r_root r) content w (q, o) (LSeek d wh) ob (q', o')).
  { intros t p Ht [[H1 ->]|[H1 H2]].
    - destruct (Z.eq_dec t o) as [->|Hto].
      { unfold seek_start. rewrite Eo, Z.eqb_refl. replace (o <? 0) with false by lia. cbn [obs_err]. exists ([], o, None), r, q, o. split; [reflexivity|]. split; [exact Hk|]. split; [reflexivity|]. split; [reflexivity|]. now apply sk_seek_here. }
      destruct (Z.eq_dec t 0) as [->|Ht0].
      { unfold seek_start. rewrite Eo. replace (0 =? o) with false by lia. cbn [obs_err Z.ltb Z.compare Z.eqb]. eexists _, _, 0, 0. split; [reflexivity|]. cbn [r_root r_size]. split; [|split; [reflexivity|split; [reflexivity|apply sk_seek; auto; lia]]].
        split; [|split; [reflexivity|lia]]. apply reader_at_new. destruct Hf as (cs & Hf & ->). now apply file_dag_tree. }
      pose proof (seek_stuck w content t r Hf Hl (proj1 H1) Ht0 ltac:(congruence)) as S. destruct (seek_start w t r) as [[z e] r']. destruct S as (S1 & S2 & S3). destruct e as [u|e| |]; cbn [obs_err]; try contradiction.
      + destruct S3 as (-> & S3 & S4). exists ([], t, None), r', t, t. split; [reflexivity|]. split; [exact S3|]. split; [exact S1|]. split; [exact S2|]. now apply sk_seek.
      + destruct S3 as (-> & -> & lo & S3 & S4). exists ([], 0, Some EFetch), r', lo, 0. split; [reflexivity|]. split; [exact S3|]. split; [exact S1|]. split; [exact S2|]. eapply sk_seek_lacks; [eassumption|assumption|lia|exact S4].
    - unfold seek_start. replace (p <? 0) with true by lia. cbn [obs_err]. exists ([], o, Some EInvalidOffset), r, q, o. rewrite Eo. split; [reflexivity|]. split; [exact Hk|]. split; [reflexivity|]. split; [reflexivity|]. eapply sk_seek_bad; eassumption. }
  unfold Seek, seek_target in *. pose proof (zlen_nonneg content) as Hn. destruct (wh =? 0) eqn:E0.
  - apply (G d d eq_refl). destruct (Z_lt_dec d 0); [right|left]; lia.
  - destruct (wh =? 1) eqn:E1.
    + destruct (d =? 0) eqn:E2.
      * assert (d = 0) as -> by lia. cbn [obs_err]. rewrite Eo. exists ([], o, None), r, q, o. split; [reflexivity|]. split; [exact Hk|]. split; [reflexivity|]. split; [reflexivity|]. apply sk_seek_here. unfold seek_target. rewrite E0, E1. f_equal. lia.
      * apply (G (o + d) (i64 (r_off r + d)) eq_refl). rewrite Eo.
        destruct (Z_lt_dec (o + d) 9223372036854775808) as [L|L]; [rewrite i64_small by lia; destruct (Z_lt_dec (o + d) 0); [right|left]; lia|]. right. split; [lia|]. apply i64_over. lia.
    + destruct (wh =? 2) eqn:E2.
      * apply (G (zlen content + d) (i64 (i64 (Size r) + d)) eq_refl). unfold Size. rewrite Hs. rewrite (i64_small (zlen content)) by lia.
        destruct (Z_lt_dec (zlen content + d) 9223372036854775808) as [L|L]; [rewrite i64_small by lia; destruct (Z_lt_dec (zlen content + d) 0); [right|left]; lia|]. right. split; [lia|]. apply i64_over. lia.
      * cbn [obs_err]. exists ([], 0, Some EInvalidWhence), r, q, o. split; [reflexivity|]. split; [exact Hk|]. split; [reflexivity|]. split; [reflexivity|]. apply sk_seek_whence. unfold seek_target. now rewrite E0, E1, E2.
Qed.

(** ** Sequences of calls *)

Lemma skew_bound root content w q o op ob q' o' : zlen content < 9223372036854775808 -> 0 <= q < 9223372036854775808 -> tree_bytes root content -> skew_step root content w (q, o) op ob (q', o') -> q' < 9223372036854775808.
Proof.
  intros Hl Hq Ht H. pose proof (fun m => read_at_len content q m) as HL. inversion H; subst; try lia; try (match goal with out := read_at content q ?m |- _ => specialize (HL m); fold out in HL end; lia);
    try (match goal with F : file_step _ _ _ _ _ |- _ => refine (step_pos _ _ _ _ _ Hl Hq _ F); exact I end).
  match goal with H : lacks _ _ _ |- _ => destruct H as (lo & hi & m & _ & [-> ?] & _) end. lia.
Qed.

Lemma skew_ok root content ops : forall r q o, r_root r = root -> tree_bytes root content -> skewed content q o r ->
  (file_content root content /\ zlen content < 9223372036854775808 /\ r_size r = zlen content /\ q < 9223372036854775808 /\ Forall (fun x => lop_ok (snd x)) ops \/ Forall (fun x => unmoved (snd x)) ops) ->
  exists t r', lrun ops r = Some (t, r') /\ skew_run root content (q, o) ops t.
Proof.
  induction ops as [|[w op] ops IH]; intros r q o Hroot Ht Hk Hc; cbn [lrun]; [eexists _, _; split; [reflexivity|constructor]|].
  assert (S : exists ob r' q' o', lstep w op r = Some (ob, r') /\ skewed content q' o' r' /\ r_root r' = r_root r /\ r_size r' = r_size r /\ skew_step (r_root r) content w (q, o) op ob (q', o')).
  { destruct op as [k|d wh|wr]; [apply skew_read; congruence| |apply skew_copy; congruence]. destruct Hc as [(C1 & C2 & C3 & C4 & C5)|C]; [|inversion C as [|? ? X]; destruct X]. inversion C5; subst. apply skew_seek; auto. }
  destruct S as (ob & r1 & q1 & o1 & S1 & S2 & S3 & S4 & S5). rewrite S1. rewrite Hroot in *.
  destruct (IH r1 q1 o1 S3 Ht S2) as (t & r' & T1 & T2).
  { destruct Hc as [(C1 & C2 & C3 & C4 & C5)|C]; [left|right; now inversion C]. repeat (split; [congruence|]). split; [|now inversion C5]. eapply skew_bound; try eassumption. split; [|assumption]. destruct Hk as (Hk & _). apply Hk. }
  rewrite T1. eexists _, _. split; [reflexivity|]. econstructor; eassumption.
Qed.

Lemma open_skewed w0 root r content : NewDagReader w0 root = Ok r -> tree_bytes (r_root r) content -> skewed content 0 0 r.
Proof.
  intros H Ht. pose proof (new_reader_at _ _ _ _ H Ht) as [A B C D E]. split; [|split; [exact A|lia]]. split; cbn [set_off r_off r_root r_stack r_data]; auto.
Qed.
Lemma every_history w0 root r content ops : NewDagReader w0 root = Ok r -> file_content root content -> zlen content < 9223372036854775808 -> Forall (fun x => lop_ok (snd x)) ops ->
  exists t r', lrun ops r = Some (t, r') /\ skew_run root content (0, 0) ops t.
Proof.
  intros H Hf Hl HF. pose proof (new_file w0 root content Hf ltac:(lia)) as E1. rewrite H in E1. injection E1 as ->.
  set (r := mkReader root (zlen content) 0 [] None) in *. assert (Hr : r_root r = root) by reflexivity. assert (Ht : tree_bytes root content) by (destruct Hf as (cs & Hf & ->); now apply file_dag_tree).
  apply (skew_ok root content ops r 0 0 Hr Ht); [eapply open_skewed; [exact H|now rewrite Hr]|]. left. repeat (split; [assumption|]). split; [reflexivity|]. split; [lia|exact HF].
Qed.
Lemma every_reading w0 root r content ops : NewDagReader w0 root = Ok r -> tree_bytes (r_root r) content -> Forall (fun x => unmoved (snd x)) ops ->
  exists t r', lrun ops r = Some (t, r') /\ skew_run (r_root r) content (0, 0) ops t.
Proof. intros H Ht HF. apply (skew_ok (r_root r) content ops r 0 0 eq_refl Ht); [eapply open_skewed; eassumption|now right]. Qed.

(** ** One seek and one read *)

Lemma seek_then_read w0 w root r content p k : NewDagReader w0 root = Ok r -> file_content root content -> zlen content < 9223372036854775808 -> 0 <= p < 9223372036854775808 ->
  (forall lo hi m, block_at root lo hi m -> lo <= p < hi \/ Z.min p (zlen content) <= lo < Z.min p (zlen content) + Z.max 1 (Z.of_nat k) -> dserv_get w m = Ok m) ->
  exists e r', lrun [(w, LSeek p 0); (w, LRead k)] r = Some ([([], p, None); (read_at content p k, zlen (read_at content p k), e)], r') /\
    (e = None \/ e = Some EEOF) /\ (e = None -> zlen (read_at content p k) = Z.of_nat k).
Proof.
  intros H Hf Hl Hp Hav. destruct (every_history w0 root r content [(w, LSeek p 0); (w, LRead k)] H Hf Hl) as (t & r' & T & R).
  { repeat constructor; cbn; lia. }
  rewrite T. assert (Ok_seek : forall P, lacks w root P -> (forall lo hi, P lo hi -> lo <= p < hi \/ Z.min p (zlen content) <= lo < Z.min p (zlen content) + Z.max 1 (Z.of_nat k)) -> False).
  { intros P (lo & hi & m & B & HP & Hm) Q. apply Hm, (Hav _ _ _ B), (Q _ _ HP). }
  inversion R as [|? ? ? o1 s1 ? t1 S1 R1]; subst. inversion R1 as [|? ? ? o2 s2 ? t2 S2 R2]; subst. inversion R2; subst. clear R R1 R2 T.
  assert (E1 : o1 = ([], p, None) /\ exists o, s1 = (p, o)).
  { inversion S1; subst; match goal with H : seek_target _ _ _ _ = _ |- _ => unfold seek_target in H; cbn in H; try discriminate; injection H as -> end.
    - split; [reflexivity|]. now exists 0.
    - split; [reflexivity|]. eauto.
    - lia.
    - exfalso. eapply Ok_seek; [eassumption|]. intros ? ? [? ?]. now left. }
  destruct E1 as (-> & o & ->). inversion S2; subst.
  - match goal with F : file_step _ _ _ _ _ |- _ => inversion F; subst end. eexists _, r'. split; [reflexivity|]. split; [assumption|]. intros ->.
    assert (zlen (read_at content p k) <= Z.of_nat k) by (unfold read_at, zlen; pose proof (firstn_le_length k (skipn (Z.to_nat p) content)); lia).
    destruct (Z_lt_dec (zlen (read_at content p k)) (Z.of_nat k)) as [L|L]; [|lia]. match goal with Q : _ < _ -> None = Some _ |- _ => specialize (Q L); discriminate end.
  - exfalso. eapply Ok_seek; [eassumption|]. cbn beta. intros lo hi ->. right. subst p0. pose proof (zlen_nonneg out). lia.
Qed.

Lemma seek_exact w0 w root r content p : NewDagReader w0 root = Ok r -> file_content root content -> zlen content < 9223372036854775808 -> 0 < p < 9223372036854775808 ->
  snd (fst (Seek w p 0 r)) = Err EFetch <-> lacks w root (fun lo hi => lo <= p < hi).
Proof.
  intros H Hf Hl Hp. destruct (every_history w0 root r content [(w, LSeek p 0)] H Hf Hl) as (t & r' & T & R); [repeat constructor; cbn; lia|].
  inversion R as [|? ? ? o1 s1 ? t1 S1 R1]; subst. inversion R1; subst. cbn [lrun lstep] in T. destruct (Seek w p 0 r) as [[n e] r1]. cbn [fst snd].
  inversion S1; subst; match goal with H : seek_target _ _ _ _ = _ |- _ => unfold seek_target in H; cbn in H; try discriminate; injection H as -> end; try lia.
  - assert (G : e <> Err EFetch) by (destruct e as [|[]| |]; cbn in T; congruence). split; [intros E; now elim G|]. intros X. exfalso. match goal with F : 0 < _ -> ~ _ |- _ => exact (F (proj1 Hp) X) end.
  - assert (G : e = Err EFetch) by (destruct e as [|[]| |]; cbn in T; congruence). split; [|intros _; exact G]. intros _. match goal with X : lacks _ _ _ |- _ => destruct X as (lo & hi & m & B & [_ ?] & Hm); exists lo, hi, m; auto end.
Qed.
