(** The calls of Modifier.v on heaps: refinement and what they change. *)
From Verif Require Import Base Pb FSNode Dag DagProofs Builder Trickle Importer Reader Modifier Directory SpecModifier Alias SpecAlias.
From Coq Require Import Permutation.

(** ** Pointers *)

Definition ptrs_ok (h : heap) (ps : list addr) : Prop := NoDup ps /\ Forall (fun a => (a < length h)%nat) ps.
Definition hok (s : hst) : Prop := let '((m, w), (h, ps)) := s in ptrs_ok h ps /\ view h ps = cur_links m.

(** Names and sizes of all links stay, and those not of the current node stay as they are. *)
Definition hframe (s s' : hst) : Prop :=
  let '(_, (h, ps)) := s in let '(_, (h', ps')) := s' in
  (length h <= length h')%nat /\
  (forall a, (a < length h)%nat -> lname (cell h' a) = lname (cell h a) /\ lsize (cell h' a) = lsize (cell h a)) /\
  (forall a, (a < length h)%nat -> ~ In a ps -> cell h' a = cell h a) /\
  (forall a, In a ps' -> In a ps \/ (length h <= a)%nat).

Lemma hframe_refl s : hframe s s.
Proof. destruct s as [x [h ps]]. cbn. split; [lia|]. auto. Qed.
Lemma hframe_trans a b c : hframe a b -> hframe b c -> hframe a c.
Proof.
  destruct a as [x1 [h1 p1]], b as [x2 [h2 p2]], c as [x3 [h3 p3]]. cbn. intros (A1 & A2 & A3 & A4) (B1 & B2 & B3 & B4).
  split; [lia|]. split.
  - intros a Ha. destruct (A2 a Ha) as [E1 E2]. destruct (B2 a ltac:(lia)) as [E3 E4]. split; congruence.
  - split.
    + intros a Ha Hn. rewrite <- (A3 a Ha Hn). apply B3; [lia|]. intros Hi. destruct (A4 a Hi); [tauto|lia].
    + intros a Hi. destruct (B4 a Hi) as [H|H]; [|right; lia]. destruct (A4 a H); [now left|right; lia].
Qed.

Lemma cell_app h new a : (a < length h)%nat -> cell (h ++ new) a = cell h a.
Proof. intros H. unfold cell. now apply app_nth1. Qed.
Lemma view_app h new ps : Forall (fun a => (a < length h)%nat) ps -> view (h ++ new) ps = view h ps.
Proof. intros H. apply map_ext_in. intros a Ha. rewrite Forall_forall in H. apply cell_app. auto. Qed.
Lemma cell_new h new i : cell (h ++ new) (length h + i)%nat = nth i new (mkLink [] 0 (NRaw rawprefix [])).
Proof. unfold cell. rewrite app_nth2 by lia. f_equal. lia. Qed.
Lemma view_new h new : view (h ++ new) (seq (length h) (length new)) = new.
Proof.
  unfold view. apply nth_ext with (d := cell (h ++ new) O) (d' := mkLink [] 0 (NRaw rawprefix [])); [now rewrite map_length, seq_length|].
  intros i Hi. rewrite map_length, seq_length in Hi. rewrite map_nth with (d := O). rewrite seq_nth by assumption. apply cell_new.
Qed.
Lemma ptrs_new h new : ptrs_ok (h ++ new) (seq (length h) (length new)).
Proof. split; [apply seq_NoDup|]. apply Forall_forall. intros a Ha. apply in_seq in Ha. rewrite app_length. lia. Qed.
Lemma ptrs_app h new ps : ptrs_ok h ps -> ptrs_ok (h ++ new) ps.
Proof. intros [H1 H2]. split; [assumption|]. eapply Forall_impl; [|exact H2]. cbn. intros a Ha. rewrite app_length. lia. Qed.
Lemma ptrs_perm h ps ps' : Permutation ps ps' -> ptrs_ok h ps -> ptrs_ok h ps'.
Proof. intros P [H1 H2]. split; [eapply Permutation_NoDup; eassumption|]. rewrite Forall_forall in *. intros a Ha. apply H2. eapply Permutation_in; [apply Permutation_sym|]; eassumption. Qed.

Lemma nodup_app {A} (l l' : list A) : NoDup l -> NoDup l' -> (forall a, In a l -> In a l' -> False) -> NoDup (l ++ l').
Proof.
  induction 1 as [|a l Ha Hl IH]; intros H2 H3; [exact H2|]. cbn. constructor.
  - intros Hi. apply in_app_or in Hi as [Hi|Hi]; [contradiction|]. apply (H3 a); [now left|assumption].
  - apply IH; [assumption|]. intros b Hb. apply H3. now right.
Qed.

(** ** Sorting *)

Lemma pinsert_view h a ps : view h (pinsert h a ps) = linsert (cell h a) (view h ps).
Proof. induction ps as [|b ps IH]; [reflexivity|]. cbn [pinsert view map linsert]. destruct (name_ltb _ _); [|reflexivity]. cbn [map]. f_equal. exact IH. Qed.
Lemma psort_view h ps : view h (psort h ps) = lsort (view h ps).
Proof. induction ps as [|a ps IH]; [reflexivity|]. cbn [psort]. rewrite pinsert_view, IH. reflexivity. Qed.
Lemma pinsert_perm h a ps : Permutation (pinsert h a ps) (a :: ps).
Proof. induction ps as [|b ps IH]; [reflexivity|]. cbn. destruct (name_ltb _ _); [|reflexivity]. rewrite IH. constructor. Qed.
Lemma psort_perm h ps : Permutation (psort h ps) ps.
Proof. induction ps as [|a ps IH]; [reflexivity|]. cbn. rewrite pinsert_perm. now constructor. Qed.

(** ** Assigning a CID *)

Lemma set_link_length i k ls : length (set_link i k ls) = length ls.
Proof. revert i. induction ls as [|l ls IH]; intros [|i]; cbn; auto. Qed.
Lemma cell_set h a k b : cell (set_link a k h) b = if (a =? b)%nat then (if (b <? length h)%nat then mkLink (lname (cell h b)) (lsize (cell h b)) k else cell h b) else cell h b.
Proof.
  unfold cell. revert a b. induction h as [|l h IH]; intros a b.
  - assert (E : set_link a k [] = []) by now destruct a. rewrite E. replace (b <? length (A := link) [])%nat with false by (cbn; now destruct b). now destruct (a =? b)%nat.
  - destruct a as [|a], b as [|b]; cbn [set_link nth length]; try reflexivity. cbn [Nat.eqb]. rewrite IH. reflexivity.
Qed.
Lemma view_set h a k ps i : ptrs_ok h ps -> nth_error ps i = Some a -> view (set_link a k h) ps = set_link i k (view h ps).
Proof.
  intros [H1 H2]. revert i. induction ps as [|b ps IH]; intros [|i] Hi; cbn in Hi; try discriminate; apply NoDup_cons_iff in H1 as [N1 N2]; inversion H2 as [|? ? L1 L2]; subst; cbn [view map set_link].
  - injection Hi as ->. rewrite cell_set, Nat.eqb_refl. replace (a <? length h)%nat with true by (symmetry; apply Nat.ltb_lt; assumption). f_equal.
    apply map_ext_in. intros c Hc. rewrite cell_set. destruct (Nat.eqb_spec a c); [subst; contradiction|reflexivity].
  - rewrite cell_set. destruct (Nat.eqb_spec a b) as [->|Hab]; [apply nth_error_In in Hi; contradiction|]. f_equal. now apply IH.
Qed.

Lemma hmodify_links_view rec sizes : forall i cur offset h ps buf w, ptrs_ok h ps ->
  let '(x, (h', ps'), buf', w') := hmodify_links rec sizes i cur offset h ps buf w in
  modify_links rec sizes i cur offset (view h ps) buf w = (x, view h' ps', buf', w') /\
  ptrs_ok h' ps' /\ Permutation ps' ps /\ length h' = length h /\
  (forall a, lname (cell h' a) = lname (cell h a) /\ lsize (cell h' a) = lsize (cell h a)) /\
  (forall a, ~ In a ps -> cell h' a = cell h a).
Proof.
  induction sizes as [|bs sizes IH]; intros i cur offset h ps buf w H; cbn [hmodify_links modify_links]; [split; [reflexivity|]; split; [assumption|]; auto|].
  destruct (offset <? u64 (cur + bs)).
  2: { specialize (IH (S i) (u64 (cur + bs)) offset h ps buf w H). exact IH. }
  unfold view at 1. rewrite nth_error_map. destruct (nth_error ps i) as [a|] eqn:Ea; cbn [option_map]; [|split; [reflexivity|]; split; [assumption|]; auto].
  destruct (dserv_get w (lto (cell h a))) as [child|e| |]; [|split; [reflexivity|]; split; [assumption|]; auto..].
  destruct (rec child (u64 (offset - cur)) buf w) as [[x buf'] w']. destruct x as [k|e| |]; [|split; [reflexivity|]; split; [assumption|]; auto..].
  set (h1 := set_link a k h).
  assert (Hv : view h1 (psort h1 ps) = lsort (set_link i k (view h ps))) by (rewrite psort_view; f_equal; now apply view_set).
  assert (Hl : length h1 = length h) by apply set_link_length.
  assert (Hp : ptrs_ok h1 (psort h1 ps)).
  { eapply ptrs_perm; [apply Permutation_sym, psort_perm|]. destruct H as [N1 N2]. split; [assumption|]. now rewrite Hl. }
  assert (Hn : forall b, lname (cell h1 b) = lname (cell h b) /\ lsize (cell h1 b) = lsize (cell h b)).
  { intros b. unfold h1. rewrite cell_set. destruct (_ =? _)%nat; [|auto]. destruct (_ <? _)%nat; auto. }
  assert (Hc : forall b, ~ In b ps -> cell h1 b = cell h b).
  { intros b Hb. unfold h1. rewrite cell_set. destruct (Nat.eqb_spec a b) as [->|]; [apply nth_error_In in Ea; contradiction|reflexivity]. }
  destruct (zlen buf' =? 0).
  - change (set_link i k (map (cell h) ps)) with (set_link i k (view h ps)). rewrite <- Hv. split; [reflexivity|]. split; [assumption|]. split; [apply psort_perm|]. auto.
  - specialize (IH (S i) (u64 (cur + bs)) (u64 (cur + bs)) h1 (psort h1 ps) buf' w' Hp).
    destruct (hmodify_links rec sizes (S i) (u64 (cur + bs)) (u64 (cur + bs)) h1 (psort h1 ps) buf' w') as [[[x [h2 p2]] b2] w2].
    destruct IH as (I1 & I2 & I3 & I4 & I5 & I6). rewrite Hv in I1. change (set_link i k (map (cell h) ps)) with (set_link i k (view h ps)). split; [exact I1|].
    split; [assumption|]. split; [rewrite I3; apply psort_perm|]. split; [congruence|]. split.
    + intros b. destruct (I5 b), (Hn b). split; congruence.
    + intros b Hb. rewrite I6; [now apply Hc|]. intros Hi. apply Hb. eapply Permutation_in; [apply psort_perm|exact Hi].
Qed.

Lemma hmodifyDag_view fuel p b h ps offset buf w : ptrs_ok h ps ->
  let '(x, buf', w', (h', ps')) := hmodifyDag fuel p b h ps offset buf w in
  modifyDag fuel (NProto p b (view h ps)) offset buf w = (x, buf', w', NProto p b (view h' ps')) /\
  ptrs_ok h' ps' /\ Permutation ps' ps /\ length h' = length h /\
  (forall a, lname (cell h' a) = lname (cell h a) /\ lsize (cell h' a) = lsize (cell h a)) /\
  (forall a, ~ In a ps -> cell h' a = cell h a).
Proof.
  intros H. unfold hmodifyDag. destruct ps as [|a0 ps0] eqn:Eps.
  { destruct fuel; cbn [modifyDag node_links view map]; destruct (modify_leaf _ _ _ _) as [[x b'] w']; split; try reflexivity; split; auto. }
  rewrite <- Eps in *. assert (El : exists l ls, view h ps = l :: ls) by (rewrite Eps; cbn; eauto). destruct El as (l0 & ls0 & El).
  destruct fuel as [|fu]; cbn [modifyDag node_links]; rewrite El; rewrite <- El; destruct (FSNodeFromBytes b) as [f|e| |];
    try (split; [reflexivity|]; split; [assumption|]; now auto).
  pose proof (hmodify_links_view (fun c o bf ww => fst (modifyDag fu c o bf ww)) (d_blocksizes f) 0 0 offset h ps buf w H) as M.
  destruct (hmodify_links _ _ _ _ _ _ _ _ _) as [[[x [h' ps']] buf'] w']. destruct M as (M1 & M2 & M3 & M4 & M5 & M6). rewrite M1.
  destruct x as [u|e| |]; [|split; [reflexivity|]; split; [assumption|]; now auto..].
  assert (Hs : seal (NProto p b (view h' ps')) = NProto p b (view h' (psort h' ps'))) by (cbn; now rewrite psort_view).
  assert (Hq : ptrs_ok h' (psort h' ps')) by (eapply ptrs_perm; [apply Permutation_sym, psort_perm|assumption]).
  assert (Hr : Permutation (psort h' ps') ps) by (rewrite psort_perm; assumption).
  destruct (dserv_add _ _ _) as [[u'|e| |] w2]; rewrite Hs; (split; [reflexivity|]; split; [assumption|]; now auto).
Qed.

(** ** Simulation *)

Definition sim_at {A} (x : N hst A) (f : M mst A) (s : hst) : Prop :=
  forall r s', x s r s' -> f (fst s) = (r, fst s') /\ hok s' /\ hframe s s'.
Definition sim {A} (x : N hst A) (f : M mst A) : Prop := forall s, hok s -> sim_at x f s.
Definition tot_at {A} (x : N hst A) (s : hst) : Prop := exists r s', x s r s'.
Definition tot {A} (x : N hst A) : Prop := forall s, hok s -> tot_at x s.

Lemma sim_bind_at {A B} (x : N hst A) (k : A -> N hst B) f g s : hok s -> sim_at x f s ->
  (forall a s1, hok s1 -> f (fst s) = (Ok a, fst s1) -> sim_at (k a) (g a) s1) -> sim_at (hbind x k) (bind f g) s.
Proof.
  intros Hs Hx Hk r s' [(a & s1 & X1 & X2)|[(e & X1 & ->)|[(X1 & ->)|(X1 & ->)]]]; destruct (Hx _ _ X1) as (E & O & F); unfold bind; rewrite E; auto.
  destruct (Hk a s1 O E r s' X2) as (E2 & O2 & F2). split; [exact E2|]. split; [exact O2|]. eapply hframe_trans; eassumption.
Qed.
Lemma sim_bind {A B} (x : N hst A) (k : A -> N hst B) f g : sim x f -> (forall a, sim (k a) (g a)) -> sim (hbind x k) (bind f g).
Proof. intros Hx Hk s Hs. apply sim_bind_at; [exact Hs|now apply Hx|]. intros a s1 H1 _. now apply Hk. Qed.
Lemma tot_bind_at {A B} (x : N hst A) (k : A -> N hst B) f s : hok s -> sim_at x f s -> tot_at x s ->
  (forall a s1, hok s1 -> f (fst s) = (Ok a, fst s1) -> tot_at (k a) s1) -> tot_at (hbind x k) s.
Proof.
  intros Hs Hx (r & s1 & T) Hk. destruct (Hx _ _ T) as (E & O & F). destruct r as [a|e| |].
  - destruct (Hk a s1 O E) as (r & s2 & T2). exists r, s2. left. eauto.
  - exists (Err e), s1. right; left. eauto.
  - exists Panic, s1. right; right; left. auto.
  - exists Fuel, s1. right; right; right. auto.
Qed.
Lemma tot_bind {A B} (x : N hst A) (k : A -> N hst B) f : sim x f -> tot x -> (forall a, tot (k a)) -> tot (hbind x k).
Proof. intros Hx Ht Hk s Hs. eapply tot_bind_at; [exact Hs|now apply Hx|now apply Ht|]. intros a s1 H1 _. now apply Hk. Qed.

Definition keeps_node {A} (f : M mst A) : Prop := forall s, cur_links (fst (snd (f s))) = cur_links (fst s).
Lemma sim_same_at {A} (f : M mst A) s : hok s -> cur_links (fst (snd (f (fst s)))) = cur_links (fst (fst s)) -> sim_at (same f) f s.
Proof.
  destruct s as [[m w] [h ps]]. intros [H1 H2] Hk r [[m' w'] [h' ps']] [E1 E2]. cbn in E2. injection E2 as -> ->. split; [exact E1|]. cbn [fst snd] in *. rewrite E1 in Hk. cbn in Hk.
  split; [split; [assumption|now rewrite Hk]|]. exact (hframe_refl ((m, w), (h, ps))).
Qed.
Lemma sim_same {A} (f : M mst A) : keeps_node f -> sim (same f) f.
Proof. intros H s Hs. apply sim_same_at; auto. Qed.
Lemma tot_same {A} (f : M mst A) : tot (same f).
Proof. intros s _. destruct (f (fst s)) as [r x] eqn:E. exists r, (x, snd s). split; [exact E|reflexivity]. Qed.

Lemma sim_append {A} (f : M mst A) : sim (append_ptrs f) f.
Proof.
  intros [[m w] [h ps]] [[N1 N2] H2] r [[m' w'] [h' ps']] (E & kept & new & K1 & K2 & K3 & K4 & K5). cbn [fst snd] in *. split; [exact E|]. subst h'.
  assert (K6 : ptrs_ok (h ++ new) (kept ++ seq (length h) (length new))).
  { split.
    - apply nodup_app; [assumption|apply seq_NoDup|]. intros a Ha Hb. apply in_seq in Hb. rewrite Forall_forall in N2. specialize (N2 a (K1 a Ha)). cbn in N2. lia.
    - apply Forall_app. split; [|apply ptrs_new]. rewrite Forall_forall in *. intros a Ha. rewrite app_length. specialize (N2 a (K1 a Ha)). lia. }
  split; [split; [eapply ptrs_perm; [apply Permutation_sym; exact K4|exact K6]|exact K5]|].
  split; [rewrite app_length; lia|]. split; [intros a Ha; rewrite cell_app by assumption; auto|]. split; [intros a Ha _; now apply cell_app|].
  intros a Ha. apply (Permutation_in _ K4) in Ha. apply in_app_or in Ha as [Ha|Ha]; [left; auto|right; apply in_seq in Ha; lia].
Qed.
Lemma tot_append {A} (f : M mst A) : tot (append_ptrs f).
Proof.
  intros s _. destruct (f (fst s)) as [r x] eqn:E. set (new := cur_links (fst x)).
  exists r, (x, (fst (snd s) ++ new, seq (length (fst (snd s))) (length new))). split; [exact E|]. exists [], new. cbn [fst snd app].
  split; [intros a []|]. split; [constructor|]. split; [reflexivity|]. split; [reflexivity|]. apply view_new.
Qed.
Lemma sim_fresh {A} (f : M mst A) : sim (fresh_ptrs f) f.
Proof.
  intros [[m w] [h ps]] [[N1 N2] H2] r [[m' w'] [h' ps']] (E & E2). cbn [fst snd] in *. split; [exact E|]. injection E2 as -> ->.
  split; [split; [apply ptrs_new|apply view_new]|].
  split; [rewrite app_length; lia|]. split; [intros a Ha; rewrite cell_app by assumption; auto|]. split; [intros a Ha _; now apply cell_app|].
  intros a Ha. right. apply in_seq in Ha. lia.
Qed.
Lemma tot_fresh {A} (f : M mst A) : tot (fresh_ptrs f).
Proof. intros s _. destruct (f (fst s)) as [r x] eqn:E. exists r, (x, (fst (snd s) ++ cur_links (fst x), seq (length (fst (snd s))) (length (cur_links (fst x))))). split; [exact E|reflexivity]. Qed.

Lemma sim_modify : sim hmodify_cur modify_cur.
Proof.
  intros [[m w] [h ps]] [H1 H2] r s' Hx. unfold hmodify_cur in Hx. unfold cur_links in H2.
  destruct (m_node m) as [[p d|p b ls]|] eqn:En.
  - eapply sim_same_at; [split; [exact H1|unfold cur_links; now rewrite En]| |exact Hx]. unfold modify_cur. cbn [fst snd]. rewrite En. destruct (m_buf m) as [buf|]; [|reflexivity].
    destruct (weight (NRaw p d)); cbn [modifyDag node_links]; destruct (modify_leaf _ _ _ _) as [[x b'] w']; cbn; unfold cur_links; rewrite ?En; reflexivity.
  - destruct (m_buf m) as [buf|] eqn:Eb.
    2: { eapply sim_same_at; [split; [exact H1|unfold cur_links; now rewrite En]| |exact Hx]. unfold modify_cur. cbn [fst snd]. rewrite En, Eb. reflexivity. }
    cbn [node_links] in H2. subst ls. pose proof (hmodifyDag_view (weight (NProto p b (view h ps))) p b h ps (m_start m) buf w H1) as V.
    destruct (hmodifyDag _ _ _ _ _ _ _ _) as [[[x buf'] w'] [h' ps']]. destruct V as (V1 & V2 & V3 & V4 & V5 & V6). destruct Hx as [-> ->].
    unfold modify_cur. cbn [fst snd]. rewrite En, Eb. cbv beta iota. rewrite V1. split; [reflexivity|]. split; [split; [exact V2|reflexivity]|].
    split; [lia|]. split; [intros a _; apply V5|]. split; [intros a _; apply V6|]. intros a Ha. left. eapply Permutation_in; eassumption.
  - eapply sim_same_at; [split; [exact H1|unfold cur_links; now rewrite En]| |exact Hx]. unfold modify_cur. cbn [fst snd]. rewrite En. reflexivity.
Qed.
Lemma tot_modify : tot hmodify_cur.
Proof.
  intros [[m w] [h ps]] H. unfold tot_at, hmodify_cur. destruct (m_node m) as [[p d|p b ls]|]; [now apply tot_same| |now apply tot_same].
  destruct (m_buf m) as [buf|]; [|now apply tot_same]. destruct (hmodifyDag _ _ _ _ _ _ _ _) as [[[x buf'] w'] [h' ps']]. eauto.
Qed.

Lemma truncate_inv p b l ls size m w : m_node m = Some (NProto p b (l :: ls)) ->
  match truncate_cur size (m, w) with
  | (Ok _, (m', w')) =>
      exists f fu e modified f' w1, FSNodeFromBytes b = Ok f /\ weight (NProto p b (l :: ls)) = S fu /\
        trunc_links (dagTruncate fu) (l :: ls) 0 0 size (RemoveAllBlockSizes f) w = (Ok (Some (e, modified), f'), w1) /\
        cur_links m' = lsort (firstn e (l :: ls) ++ [make_link [] modified])
  | (_, (m', w')) => m' = m
  end.
Proof.
  intros En. unfold truncate_cur. cbn [fst snd]. rewrite En. cbn [weight]. set (fu := S (fold_right _ _ _)). cbn [dagTruncate node_links].
  destruct (FSNodeFromBytes b) as [f|e| |] eqn:Ef; try reflexivity.
  destruct (trunc_links (dagTruncate fu) (l :: ls) 0 0 size (RemoveAllBlockSizes f) w) as [[[[[e modified]|] f']|e| |] w1] eqn:Et; try reflexivity.
  destruct (dserv_add modified None w1) as [[u|x| |] w2]; try reflexivity. destruct (GetBytes f') as [d|x| |]; try reflexivity.
  exists f, fu, e, modified, f', w1. split; [reflexivity|]. split; [reflexivity|]. split; [exact Et|]. reflexivity.
Qed.
Lemma firstn_incl {A} n (l : list A) : incl (firstn n l) l.
Proof. intros a Ha. rewrite <- (firstn_skipn n l). apply in_or_app. now left. Qed.
Lemma firstn_nodup {A} n (l : list A) : NoDup l -> NoDup (firstn n l).
Proof. revert n. induction l as [|a l IH]; intros [|n] H; cbn; try constructor; apply NoDup_cons_iff in H as [H1 H2]; [|now apply IH]. intros Hi. apply H1. eapply firstn_incl. exact Hi. Qed.

Lemma truncate_leaf_links m w size : cur_links m = [] -> cur_links (fst (snd (truncate_cur size (m, w)))) = [].
Proof.
  intros H. unfold truncate_cur. cbn [fst snd]. unfold cur_links in H. destruct (m_node m) as [n|] eqn:En; [|cbn; unfold cur_links; now rewrite En].
  destruct n as [p d|p b ls].
  - destruct (dagTruncate _ _ _ _) as [[nn|e| |] w']; cbn; unfold cur_links; now rewrite En.
  - cbn in H. subst ls. cbn [weight fold_right dagTruncate node_links]. destruct (FSNodeFromBytes b) as [f|e| |]; cbn [fst snd]; try (unfold cur_links; now rewrite En).
    destruct (_ <? _); cbn [fst snd]; [unfold cur_links; now rewrite En|]. destruct (WrapData _) as [b'|e| |]; cbn [fst snd]; try (unfold cur_links; now rewrite En). reflexivity.
Qed.

Lemma sim_truncate size : sim (htruncate_cur size) (truncate_cur size).
Proof.
  intros [[m w] [h ps]] [H1 H2] r s' Hx. assert (Hs : hok ((m, w), (h, ps))) by now split. unfold htruncate_cur in Hx.
  assert (Hleaf : ps = [] -> same (truncate_cur size) ((m, w), (h, ps)) r s' -> truncate_cur size (m, w) = (r, fst s') /\ hok s' /\ hframe ((m, w), (h, ps)) s').
  { intros -> X. refine (sim_same_at _ _ Hs _ _ _ X). cbn [fst snd]. cbn in H2. rewrite <- H2. now apply truncate_leaf_links. }
  assert (Hnone : match m_node m with Some (NProto _ _ _) => False | _ => True end -> ps = []).
  { unfold cur_links in H2. destruct (m_node m) as [[|]|]; intros []; now destruct ps. }
  destruct (m_node m) as [[p d|p b ls]|] eqn:En; [apply Hleaf; auto| |apply Hleaf; auto].
  destruct ps as [|a0 ps0] eqn:Eps; [now apply Hleaf|]. rewrite <- Eps in *. clear Hleaf Hnone.
  destruct Hx as [E X]. split; [exact E|]. unfold cur_links in H2. rewrite En in H2. cbn [node_links] in H2.
  assert (El : exists l ls', ls = l :: ls') by (rewrite <- H2, Eps; cbn; eauto). destruct El as (l & ls' & ->).
  pose proof (truncate_inv p b l ls' size m w En) as T. destruct s' as [[m' w'] [h' ps']]. cbn [fst snd] in *. rewrite E in T. destruct r as [nn|e| |].
  2-4: injection X as -> ->; subst m'; split; [split; [exact H1|unfold cur_links; now rewrite En]|exact (hframe_refl ((m, w), (h, ps)))].
  destruct X as (f & fu & e & modified & f' & w1 & X1 & X2 & X3 & X4). destruct T as (f2 & fu2 & e2 & mo2 & f2' & w2 & T1 & T2 & T3 & T4).
  rewrite X1 in T1. injection T1 as <-. rewrite X2 in T2. injection T2 as <-. rewrite <- H2 in T3. rewrite X3 in T3. injection T3 as <- <- <- <-. injection X4 as -> ->.
  destruct H1 as [N1 N2].
  assert (P : ptrs_ok (h ++ [make_link [] modified]) (firstn e ps ++ [length h])).
  { split.
    - apply nodup_app; [now apply firstn_nodup|constructor; [intros []|constructor]|]. intros a Ha [<-|[]]. apply firstn_incl in Ha. rewrite Forall_forall in N2. specialize (N2 _ Ha). cbn in N2. lia.
    - apply Forall_app. rewrite !Forall_forall in *. split; intros a Ha; rewrite app_length; cbn [length].
      + apply firstn_incl in Ha. specialize (N2 _ Ha). cbn in N2. lia.
      + destruct Ha as [<-|[]]. lia. }
  split.
  - split; [eapply ptrs_perm; [apply Permutation_sym, psort_perm|exact P]|]. rewrite T4, psort_view. f_equal. unfold view. rewrite map_app. f_equal.
    + rewrite <- firstn_map, <- H2. f_equal. unfold view. change (map (cell (h ++ [make_link [] modified])) ps) with (view (h ++ [make_link [] modified]) ps). rewrite view_app by assumption. reflexivity.
    + cbn [map]. f_equal. pose proof (cell_new h [make_link [] modified] 0) as C. rewrite Nat.add_0_r in C. exact C.
  - split; [rewrite app_length; lia|]. split; [intros a Ha; rewrite cell_app by assumption; auto|]. split; [intros a Ha _; now apply cell_app|].
    intros a Ha. apply (Permutation_in _ (psort_perm _ _)) in Ha. apply in_app_or in Ha as [Ha|[<-|[]]]; [left; eapply firstn_incl; exact Ha|right; lia].
Qed.
Lemma tot_truncate size : tot (htruncate_cur size).
Proof.
  intros [[m w] [h ps]] [H1 H2]. unfold tot_at, htruncate_cur. unfold cur_links in H2.
  destruct (m_node m) as [[p d|p b ls]|] eqn:En; [apply tot_same; split; [exact H1|unfold cur_links; now rewrite En]| |apply tot_same; split; [exact H1|unfold cur_links; now rewrite En]].
  destruct ps as [|a0 ps0] eqn:Eps; [apply tot_same; split; [exact H1|unfold cur_links; now rewrite En]|]. rewrite <- Eps in *. cbn [node_links] in H2.
  assert (El : exists l ls', ls = l :: ls') by (rewrite <- H2, Eps; cbn; eauto). destruct El as (l & ls' & ->).
  pose proof (truncate_inv p b l ls' size m w En) as T. destruct (truncate_cur size (m, w)) as [[nn|e| |] [m' w']].
  2-4: eexists _, ((m', w'), (h, ps)); split; [reflexivity|reflexivity].
  destruct T as (f2 & fu2 & e2 & mo2 & f2' & w2 & T1 & T2 & T3 & T4).
  eexists _, ((m', w'), (_, _)). split; [reflexivity|]. rewrite H2. exists f2, fu2, e2, mo2, f2', w2. split; [exact T1|]. split; [exact T2|]. split; [exact T3|]. reflexivity.
Qed.

(** ** Calls *)

Definition faithful {A} (x : N hst A) (f : M mst A) : Prop := sim x f /\ tot x.
Lemma f_bind {A B} (x : N hst A) (k : A -> N hst B) f g : faithful x f -> (forall a, faithful (k a) (g a)) -> faithful (hbind x k) (bind f g).
Proof. intros [H1 H2] H. split; [apply sim_bind; [exact H1|apply H]|]. eapply tot_bind; [exact H1|exact H2|apply H]. Qed.
Lemma f_same {A} (f : M mst A) : keeps_node f -> faithful (same f) f.
Proof. intros H. split; [now apply sim_same|apply tot_same]. Qed.
Lemma f_append {A} (f : M mst A) : faithful (append_ptrs f) f.
Proof. split; [apply sim_append|apply tot_append]. Qed.
Lemma f_fresh {A} (f : M mst A) : faithful (fresh_ptrs f) f.
Proof. split; [apply sim_fresh|apply tot_fresh]. Qed.
Lemma f_modify : faithful hmodify_cur modify_cur.
Proof. split; [apply sim_modify|apply tot_modify]. Qed.
Lemma f_truncate size : faithful (htruncate_cur size) (truncate_cur size).
Proof. split; [apply sim_truncate|apply tot_truncate]. Qed.

Lemma k_ret {A} (a : A) : keeps_node (ret a). Proof. intros s. reflexivity. Qed.
Lemma k_throw {A} e : keeps_node (throw (A := A) e). Proof. intros s. reflexivity. Qed.
Lemma k_lift {A} (r : res A) : keeps_node (lift r). Proof. intros s. reflexivity. Qed.
Lemma k_get : keeps_node get_mod. Proof. intros s. reflexivity. Qed.
Lemma k_cur : keeps_node cur_node. Proof. intros [m w]. unfold cur_node. cbn. destruct (m_node m); reflexivity. Qed.
Lemma k_upd f : (forall m, m_node (f m) = m_node m) -> keeps_node (upd_mod f).
Proof. intros H [m w]. cbn. unfold cur_links. now rewrite H. Qed.
Lemma k_add n : keeps_node (mod_add n).
Proof. intros [m w]. unfold mod_add. cbn. destruct (dserv_add n None w). reflexivity. Qed.
Lemma k_bind {A B} (f : M mst A) (g : A -> M mst B) : keeps_node f -> (forall a, keeps_node (g a)) -> keeps_node (bind f g).
Proof.
  intros Hf Hg s. unfold bind. specialize (Hf s). destruct (f s) as [[a|e| |] s1]; cbn [snd fst] in *; try assumption. rewrite Hg. exact Hf.
Qed.
Lemma k_size : keeps_node mSize.
Proof.
  unfold mSize. apply k_bind; [apply k_cur|intros n]. apply k_bind; [apply k_lift|intros fs]. apply k_bind; [apply k_get|intros m].
  destruct (m_buf m); apply k_ret.
Qed.
Lemma k_read_seek o wh : keeps_node (read_seek o wh).
Proof. intros [m w]. unfold read_seek. cbn. destruct (m_read m) as [r|]; [|reflexivity]. destruct (Seek w o wh r) as [[i e] r']. reflexivity. Qed.

Ltac fstep :=
  match goal with
  | |- faithful (hbind _ _) (bind _ _) => apply f_bind; [|intros ?]
  | |- faithful (same _) _ => apply f_same
  | |- faithful (append_ptrs _) _ => apply f_append
  | |- faithful (fresh_ptrs _) _ => apply f_fresh
  | |- faithful hmodify_cur _ => apply f_modify
  | |- faithful (htruncate_cur _) _ => apply f_truncate
  | |- faithful (if ?b then _ else _) _ => destruct b
  | |- faithful (match ?b with _ => _ end) _ => destruct b
  | |- keeps_node (ret _) => apply k_ret
  | |- keeps_node (throw _) => apply k_throw
  | |- keeps_node (lift _) => apply k_lift
  | |- keeps_node get_mod => apply k_get
  | |- keeps_node cur_node => apply k_cur
  | |- keeps_node mSize => apply k_size
  | |- keeps_node (mod_add _) => apply k_add
  | |- keeps_node (read_seek _ _) => apply k_read_seek
  | |- keeps_node (if ?b then _ else _) => destruct b
  | |- keeps_node (upd_mod _) => apply k_upd; intros ?; reflexivity
  end.

Lemma f_expand size : faithful (hexpandSparse size) (expandSparse size).
Proof. unfold hexpandSparse, expandSparse. repeat fstep. Qed.

Section Calls.
  Variable split : bytes -> list bytes.
  Variable wbsize : Z.

  Lemma f_Sync : faithful (hSync split) (Sync split).
  Proof. unfold hSync, Sync. repeat (fstep || apply f_expand). Qed.
  Lemma f_Write b : faithful (hWrite split wbsize b) (mWrite split wbsize b).
  Proof. unfold hWrite, mWrite. repeat (fstep || apply f_Sync). Qed.
  Lemma f_WriteAt b off : faithful (hWriteAt split wbsize b off) (WriteAt split wbsize b off).
  Proof. unfold hWriteAt, WriteAt. repeat (fstep || apply f_Sync || apply f_expand || apply f_Write). Qed.
  Lemma f_Seek off wh : faithful (hSeek split off wh) (mSeek split off wh).
  Proof. unfold hSeek, mSeek. repeat (fstep || apply f_Sync || apply f_expand). Qed.

  Lemma bind_Ok {A B} (f : M mst A) (g : A -> M mst B) s b s' : bind f g s = (Ok b, s') -> exists a s1, f s = (Ok a, s1) /\ g a s1 = (Ok b, s').
  Proof. unfold bind. destruct (f s) as [[a|e| |] s1]; try discriminate. eauto. Qed.
  Lemma Sync_clean s u s' : Sync split s = (Ok u, s') -> m_buf (fst s') = None.
  Proof.
    unfold Sync. intros H. apply bind_Ok in H as (m0 & s1 & E & H). unfold get_mod in E. injection E as <- <-.
    destruct (m_buf (fst s)) as [buf0|] eqn:Eb; [|injection H as _ <-; exact Eb].
    do 8 (apply bind_Ok in H as (? & ? & _ & H)). unfold upd_mod in H. injection H as _ <-. reflexivity.
  Qed.
  Lemma Sync_clean_id s : m_buf (fst s) = None -> Sync split s = (Ok tt, s).
  Proof. destruct s as [m w]. intros H. unfold Sync, bind, get_mod. cbn [fst] in *. now rewrite H. Qed.
  Lemma Sync_again {A} (f : M mst A) s : bind (Sync split) (fun _ => bind (Sync split) (fun _ => f)) s = bind (Sync split) (fun _ => f) s.
  Proof.
    unfold bind at 1 3. destruct (Sync split s) as [[u|e| |] s1] eqn:E; try reflexivity. apply Sync_clean in E. unfold bind. now rewrite Sync_clean_id.
  Qed.

  (** After Sync, a call that only syncs again and leaves the node alone. *)
  Lemma f_synced {A} (g f : M mst A) : (forall s, g s = bind (Sync split) (fun _ => f) s) -> keeps_node f ->
    faithful (hbind (hSync split) (fun _ => same g)) g.
  Proof.
    intros Hg Hk. destruct f_Sync as [S1 S2].
    assert (K : forall s1 : hst, m_buf (fst (fst s1)) = None -> cur_links (fst (snd (g (fst s1)))) = cur_links (fst (fst s1))).
    { intros s1 Hb. rewrite Hg. unfold bind. rewrite Sync_clean_id by exact Hb. apply Hk. }
    assert (G : forall s, g s = bind (Sync split) (fun _ => g) s).
    { intros s. rewrite Hg. rewrite <- Sync_again. unfold bind at 1 3. destruct (Sync split s) as [[u|e| |] s1]; try reflexivity. symmetry. apply Hg. }
    split.
    - intros s Hs r s' X. rewrite G. revert r s' X. apply sim_bind_at; [exact Hs|now apply S1|].
      intros u s1 H1 E. apply sim_same_at; [exact H1|]. apply K. eapply Sync_clean. exact E.
    - eapply tot_bind; [exact S1|exact S2|]. intros u. apply tot_same.
  Qed.
  Lemma bind_assoc {A B C} (f : M mst A) (g : A -> M mst B) (k : B -> M mst C) s : bind (bind f g) k s = bind f (fun a => bind (g a) k) s.
  Proof. unfold bind. destruct (f s) as [[a|e| |] s1]; reflexivity. Qed.

  Lemma bind_assoc1 {B C} (f : M mst unit) (g : M mst B) (k : B -> M mst C) s : bind (bind f (fun _ => g)) k s = bind f (fun _ => bind g k) s.
  Proof. apply bind_assoc. Qed.

  Lemma f_Read k : faithful (hRead split k) (mRead split k).
  Proof.
    unfold hRead. refine (f_synced _ _ (fun s => bind_assoc1 _ _ _ s) _). apply k_bind.
    - apply k_bind; [apply k_get|intros m]. destruct (m_read m); [apply k_ret|]. apply k_bind; [intros [m1 w]; cbn; destruct (m_node m1); reflexivity|intros n].
      apply k_bind; [intros s; reflexivity|intros w]. apply k_bind; [apply k_lift|intros r]. destruct (Seek w (i64 (m_off m)) 0 r) as [[i e] r'].
      apply k_bind; [apply k_lift|intros _]. destruct (_ =? _); [apply k_upd; reflexivity|apply k_throw].
    - intros _ [m w]. cbn [fst snd]. destruct (m_read m) as [r|]; [|reflexivity]. destruct (CtxReadFull w k r) as [[b e] r']. destruct e; reflexivity.
  Qed.
  Lemma f_GetNode : faithful (hGetNode split) (mGetNode split).
  Proof.
    unfold hGetNode. refine (f_synced _ _ (fun s => eq_refl) _). intros [m w]. cbn [fst]. destruct (m_node m); reflexivity.
  Qed.
  Lemma truncate_links size s nn s' : truncate_cur size s = (Ok nn, s') -> cur_links (fst s') = node_links nn.
  Proof.
    destruct s as [m w]. unfold truncate_cur. cbn [fst snd]. destruct (m_node m) as [n|] eqn:En; [|discriminate].
    destruct (dagTruncate (weight n) n size w) as [[x|e| |] w'] eqn:E; try discriminate. intros H. injection H as <- <-. destruct n as [p d|p b ls]; [|reflexivity].
    cbn [fst]. unfold cur_links. rewrite En. cbn [weight dagTruncate node_links] in E. destruct (_ <? _); [discriminate|]. injection E as <- <-. reflexivity.
  Qed.
  Lemma f_Truncate size : faithful (hTruncate split size) (mTruncate split size).
  Proof.
    assert (T : forall nn s, hok s -> cur_links (fst (fst s)) = node_links nn ->
      sim_at (hbind (same (mod_add nn)) (fun _ => same (upd_mod (m_set_node (Some nn))))) (bind (mod_add nn) (fun _ => upd_mod (m_set_node (Some nn)))) s).
    { intros nn s Hs El. apply sim_bind_at; [exact Hs|apply sim_same_at; [exact Hs|apply k_add]|]. intros u s1 H1 E. apply sim_same_at; [exact H1|].
      pose proof (k_add nn (fst s)) as K. rewrite E in K. cbn [snd] in K. change (node_links nn = cur_links (fst (fst s1))). rewrite K. symmetry. exact El. }
    unfold hTruncate, mTruncate. apply f_bind; [apply f_Sync|intros _]. apply f_bind; [repeat fstep|intros real]. destruct (size =? real); [repeat fstep|].
    destruct (real <? size); [apply f_expand|]. destruct (f_truncate (u64 size)) as [S1 S2]. split.
    - intros s Hs. apply sim_bind_at; [exact Hs|now apply S1|]. intros nn s1 H1 E. apply T; [exact H1|]. eapply truncate_links. exact E.
    - intros s Hs. eapply tot_bind_at; [exact Hs|now apply S1|now apply S2|]. intros nn s1 H1 E. eapply tot_bind_at; [exact H1|apply sim_same_at; [exact H1|apply k_add]|now apply tot_same|].
      intros u s2 H2 _. now apply tot_same.
  Qed.

  Lemma f_map {A B} (g : A -> B) (x : N hst A) f : faithful x f -> faithful (hmap g x) (bind f (fun a => ret (g a))).
  Proof.
    intros [S1 S2]. split.
    - intros s Hs r s' (q & X & ->). destruct (S1 s Hs q s' X) as (E & O & F). split; [|auto]. unfold bind. rewrite E. destruct q; reflexivity.
    - intros s Hs. destruct (S2 s Hs) as (q & s' & X). exists (rmap g q), s', q. auto.
  Qed.
  Lemma f_hop op : faithful (hop split wbsize op) (mcall split wbsize op).
  Proof.
    destruct op; apply f_map; auto using f_Write, f_WriteAt, f_Seek, f_Truncate, f_Read, f_Sync, f_GetNode. repeat fstep.
  Qed.
End Calls.
