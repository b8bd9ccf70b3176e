(** The chunks of a file after data was added at its end. *)
From Verif Require Import Base Pb PbProofs FSNode FSNodeProofs Dag DagProofs Builder Balanced Trickle Importer Reader Modifier
  SpecFile SpecAppend SpecModifier BuilderProofs BalancedProofs ImportProofs AppendProofs AppendRun AppendSame SpecShare ShareProofs ReaderWitness ModifierRun ModifierProofs TruncateProofs ModifierFacts ShortenProofs TraceProofs RewriteProofs DetProofs LeakProofs SpecHole HoleProofs SpecPieces PiecesProofs FlushProofs OnwardProofs.

Lemma solid_concat cs : concat (solid cs) = concat cs.
Proof. induction cs as [|[|x c] r IH]; cbn [solid filter concat]; [reflexivity|exact IH|]. f_equal. exact IH. Qed.
Lemma solid_id cs : Forall (fun c => c <> []) cs -> solid cs = cs.
Proof. induction 1 as [|c r Hc _ IH]; [reflexivity|]. destruct c; [contradiction|]. unfold solid in *. cbn [filter]. now rewrite IH. Qed.

Lemma append_chunks : forall fuel rfuel dbp fi chunks base w root base' w' cs, 1 <= pr_maxlinks dbp -> (length chunks < fuel)%nat -> (height base <= rfuel)%nat -> file_dag base cs -> appendable (pr_maxlinks dbp) base ->
  trickle_append fuel rfuel dbp fi (map EvData chunks) base w = (Ok root, base', w') -> exists rcs, file_dag root rcs /\ solid rcs = solid cs ++ solid chunks.
Proof. exact append_solid. Qed.

(** With any fuel, as the result does not depend on it. *)
Lemma append_any f g dbp fi chunks base w root base' w' cs : 1 <= pr_maxlinks dbp -> pr_nocopy dbp = false -> Forall (fun c => zlen c <= BlockSizeLimit) chunks -> file_dag base cs -> appendable (pr_maxlinks dbp) base ->
  trickle_append f g dbp fi (map EvData chunks) base w = (Ok root, base', w') -> exists rcs, file_dag root rcs /\ solid rcs = solid cs ++ solid chunks.
Proof.
  intros Hk Hn Hs Hf Ha E. destruct (trickle_append (S (length chunks)) (height base) dbp false (map EvData chunks) base full) as [[r b] v] eqn:E2.
  pose proof (append_result (S (length chunks)) (height base) dbp false (map EvData chunks) base full r b v cs Hk ltac:(rewrite map_length; apply Nat.lt_succ_diag_r) (le_n _) Hf Ha E2) as R.
  destruct r as [r|e| |]; try contradiction.
  - rewrite (append_det _ _ _ _ _ _ _ _ _ _ _ _ _ _ _ _ _ E E2) in *. eapply append_solid; [exact Hk| |exact (le_n _)|exact Hf|exact Ha|exact E2]. apply Nat.lt_succ_diag_r.
  - exfalso. destruct R as (R & _). apply R. split; [exists chunks; split; [reflexivity|exact Hs]|]. split; [congruence|]. split; [intros i; reflexivity|]. intros m _. reflexivity.
Qed.

(** Files of the same shape have chunks of the same sizes. *)
Lemma shape_lens : forall n n' cs cs', same_shape n n' -> file_dag n cs -> file_dag n' cs' -> map zlen cs = map zlen cs'.
Proof.
  induction n as [p d|p x ls IH] using DagProofs.node_ind'; intros n' cs cs' S H H'.
  - inversion S; subst. inversion H; subst. inversion H'; subst. cbn [map]. congruence.
  - inversion S as [|? ? b' f data S1 S2 S3 S4 S5|? ? ? ls' Hn Hz HF]; subst.
    + inversion H as [|? ? fs E|]; subst; [|congruence]. inversion H' as [|? ? fs' E'|]; subst; [|congruence]. rewrite S1 in E. injection E as <-. rewrite S2 in E'. injection E' as <-.
      cbn [map]. f_equal. unfold getData at 2. cbn [set_data d_data]. congruence.
    + inversion H as [|? ? fs E|? ? fs ? css Hne _ E _ _ Hf _ _]; subst.
      * destruct ls'; [|discriminate]. inversion H' as [|? ? fs' E'|]; subst; [|congruence]. rewrite E in E'. now injection E' as <-.
      * inversion H' as [|? ? fs' E'|? ? fs' ? css' Hne' _ E' _ _ Hf' _ _]; subst; [destruct ls; [congruence|discriminate]|].
        clear - IH HF Hf Hf'. revert ls' css css' HF Hf Hf'. induction IH as [|l ls Hl _ IHl]; intros [|l' ls'] css css' F1 F2 F3; cbn [map] in *; inversion F1; subst; inversion F2; subst; inversion F3; subst; [reflexivity|].
        cbn [concat]. rewrite !map_app. erewrite Hl; [|eassumption..]. erewrite IHl; [|eassumption..]. reflexivity.
Qed.
Lemma lens_eq : forall xs ys : list bytes, map zlen xs = map zlen ys -> concat xs = concat ys -> xs = ys.
Proof.
  induction xs as [|x xs IH]; intros [|y ys] H E; try discriminate; [reflexivity|]. injection H as Hx H. cbn [concat] in E. apply app_inj_len in E as (-> & E); [|unfold zlen in Hx; lia]. f_equal. auto.
Qed.
Lemma write_chunks : forall split wbsize b n cs w n1 s1, chunker_ok split -> file_dag n cs -> growable K n -> b <> [] -> zlen (concat cs) + zlen b < 9223372036854775808 ->
  write_back split wbsize b (zlen (concat cs)) n w = (Ok n1, s1) -> exists rcs, file_dag n1 rcs /\ solid rcs = solid cs ++ solid (split b).
Proof.
  intros split wb b n cs w n1 s1 Hs Hf Hg Hb Hl E. assert (Hfc : file_content n (concat cs)) by (exists cs; auto).
  destruct (write_end_inv _ _ _ _ _ _ _ _ Hs Hfc Hg Hb Hl E) as (k & f & r & v & v' & Sh & (ck & Hk & Ek) & Gk & A & _).
  pose proof (lens_eq _ _ (shape_lens _ _ _ _ Sh Hf Hk) Ek). subst ck.
  exact (append_any _ _ (grow_params n) _ _ _ _ _ _ _ cs K_pos eq_refl (proj2 (Hs b)) Hk (growable_appendable K k K_pos Gk) A).
Qed.

Lemma zero_cut k : 0 < k -> cut_every 4096 (zero_chunks k) /\ concat (zero_chunks k) = zeros k /\ Forall (fun c => c <> []) (zero_chunks k) /\ Forall (fun c => zlen c <= BlockSizeLimit) (zero_chunks k).
Proof.
  intros Hk. pose proof (chop_fixed 4096 ltac:(lia) (zeros k)) as (C & X). pose proof (cut_zeros _ k X C Hk) as E. rewrite <- E. split; [exact X|]. split; [exact C|].
  destruct X as (full & last & -> & F & L). split; apply Forall_app; (split; [eapply Forall_impl; [|exact F]|]).
  - intros a H ->. discriminate.
  - destruct L as [->|(x & -> & L)]; [constructor|]. constructor; [|constructor]. intros ->. change (zlen []) with 0 in L. lia.
  - intros a H. cbn beta in *. unfold BlockSizeLimit, bytes in *. lia.
  - destruct L as [->|(x & -> & L)]; [constructor|]. constructor; [|constructor]. unfold BlockSizeLimit. lia.
Qed.
Lemma grow_chunks : forall split d n cs w n1 s1, file_dag n cs -> growable K n -> zlen (concat cs) < d < 9223372036854775808 ->
  truncate_to split d n w = (Ok n1, s1) -> exists rcs zs, file_dag n1 rcs /\ solid rcs = solid cs ++ zs /\ cut_every 4096 zs /\ concat zs = repeat Byte.x00 (Z.to_nat (d - zlen (concat cs))).
Proof.
  intros split d n cs w n1 s1 Hf Hg Hd E. assert (Hfc : file_content n (concat cs)) by (exists cs; auto).
  destruct (grow_inv _ _ _ _ _ _ _ Hfc Hg Hd E) as (f & r & v & A). destruct (zero_cut (d - zlen (concat cs)) ltac:(lia)) as (Z1 & Z2 & Z3 & Z4).
  destruct (append_any _ _ (grow_params n) _ _ _ _ _ _ _ cs K_pos eq_refl Z4 Hf (growable_appendable K n K_pos Hg) A) as (rcs & R1 & R2). rewrite (solid_id _ Z3) in R2. exists rcs, (zero_chunks (d - zlen (concat cs))). auto.
Qed.

(** ** Consequences for the roots *)

Lemma cut_solid s l : 0 < s -> cut_every s l -> solid l = l.
Proof.
  intros Hs (full & last & -> & F & L). apply solid_id, Forall_app. split; [eapply Forall_impl; [|exact F]; intros a H ->; change (zlen []) with 0 in H; lia|].
  destruct L as [->|(x & -> & L)]; [constructor|]. constructor; [|constructor]. intros ->. change (zlen []) with 0 in L. lia.
Qed.
Lemma zeros_exact : forall split d n c w1 n1 s1 split2 wbsize w2 n2 s2, chunker_ok split2 -> file_content n c -> growable K n -> canonical_leaves n -> zlen c < d < 9223372036854775808 ->
  truncate_to split d n w1 = (Ok n1, s1) -> write_back split2 wbsize (repeat Byte.x00 (Z.to_nat (d - zlen c))) (zlen c) n w2 = (Ok n2, s2) ->
  ~ In [] (split2 (repeat Byte.x00 (Z.to_nat (d - zlen c)))) -> (n1 = n2 <-> cut_every 4096 (split2 (repeat Byte.x00 (Z.to_nat (d - zlen c))))).
Proof.
  intros split d n c w1 n1 s1 split2 wb w2 n2 s2 Hs Hf Hg Hc Hd E1 E2 Hne. split; [|eapply same_append; eassumption]. intros <-. destruct Hf as (cs & Hf & ->).
  pose proof (zlen_nonneg (concat cs)) as H0. assert (Lz : zlen (repeat Byte.x00 (Z.to_nat (d - zlen (concat cs)))) = d - zlen (concat cs)) by (rewrite zlen_repeat; lia).
  destruct (grow_chunks _ _ _ _ _ _ _ Hf Hg Hd E1) as (r1 & zs & F1 & S1 & C1 & _). destruct (write_chunks _ _ _ _ _ _ _ _ Hs Hf Hg ltac:(intros X; rewrite X in Lz; change (zlen []) with 0 in Lz; lia) ltac:(lia) E2) as (r2 & F2 & S2).
  rewrite (file_dag_fun _ _ _ F1 F2) in S1. rewrite S2 in S1. apply app_inv_head in S1. rewrite <- S1 in C1. rewrite solid_id in C1; [exact C1|]. apply Forall_forall. intros x Hx ->. contradiction.
Qed.
Lemma onward_needs : forall split wbsize c b n w n1 s1 f fi v n2 v', chunker_ok split -> made (split c) n -> b <> [] -> zlen c + zlen b < 9223372036854775808 ->
  write_back split wbsize b (zlen c) n w = (Ok n1, s1) -> (length (split (c ++ b)) < f)%nat -> trickle_import f (grow_params n) fi (map EvData (split (c ++ b))) v = (Ok n2, v') ->
  n1 = n2 -> solid (split c) ++ solid (split b) = solid (split (c ++ b)).
Proof.
  intros split wbsize c b n w n1 s1 f fi v n2 v' Hs Hm Hb Hl E Hfl E2 <-. pose proof (made_canonical _ _ Hm) as Hc. pose proof (made_growable _ _ Hm) as Hg.
  destruct Hm as (g & gi & u & u' & Hgl & Him).
  destruct (imports_dag (split c) n) as (cs & F & X); [right; exists g, (grow_params n), gi, u, u'; split; [exact K_pos|auto]|].
  destruct (imports_dag (split (c ++ b)) n1) as (cs2 & F2 & X2); [right; exists f, (grow_params n), fi, v, v'; split; [exact K_pos|auto]|].
  assert (Ec : concat cs = c) by (destruct X as [(X & ->)| ->]; [rewrite <- (proj1 (Hs c)), X; reflexivity|apply Hs]).
  assert (S1 : solid cs = solid (split c)) by (destruct X as [(-> & ->)| ->]; reflexivity).
  assert (S2 : solid cs2 = solid (split (c ++ b))) by (destruct X2 as [(-> & ->)| ->]; reflexivity).
  rewrite <- Ec in E at 1. destruct (write_chunks _ _ _ _ _ _ _ _ Hs F Hg Hb ltac:(rewrite Ec; exact Hl) E) as (rcs & R1 & R2). rewrite (file_dag_fun _ _ _ R1 F2) in R2. congruence.
Qed.
Lemma onward_needs_fixed : forall s split wbsize c b n w n1 s1 f fi v n2 v', 0 < s <= BlockSizeLimit -> fixed_size s split -> made (split c) n -> b <> [] -> zlen c + zlen b < 9223372036854775808 ->
  write_back split wbsize b (zlen c) n w = (Ok n1, s1) -> (length (split (c ++ b)) < f)%nat -> trickle_import f (grow_params n) fi (map EvData (split (c ++ b))) v = (Ok n2, v') ->
  zlen c mod s <> 0 -> n1 <> n2.
Proof.
  intros s split wbsize c b n w n1 s1 f fi v n2 v' Hs Hx Hm Hb Hl E Hfl E2 Hz H. apply Hz.
  pose proof (onward_needs _ _ _ _ _ _ _ _ _ _ _ _ _ (fixed_chunker _ _ Hs Hx) Hm Hb Hl E Hfl E2 H) as X. rewrite !(cut_solid s) in X by (try lia; apply Hx). rewrite (fixed_app s split c b ltac:(lia) Hx Hb) in X. exact X.
Qed.

(** ** Data written in two calls *)

Lemma flushed_needs : forall split wbsize n a b w n1 s1 n2 s2, chunker_ok split -> file_content n [] -> growable K n -> 0 <= wbsize < zlen a -> b <> [] -> zlen a + zlen b < 9223372036854775808 ->
  (do _ <- writes split wbsize [a; b] ;; mGetNode split) (NewDagModifier n, w) = (Ok n1, s1) -> (do _ <- writes split wbsize [a ++ b] ;; mGetNode split) (NewDagModifier n, w) = (Ok n2, s2) ->
  n1 = n2 -> solid (split a) ++ solid (split b) = solid (split (a ++ b)).
Proof.
  intros split wbsize n a b w n1 s1 n2 s2 Hs Hf Hg Hw Hb Hl E1 E2 <-. pose proof (zlen_nonneg b). assert (Ha : a <> []) by (apply zlen_pos; lia). assert (Hab : a ++ b <> []) by now destruct a.
  rewrite (run_one split wbsize (a ++ b) n w ltac:(lia) Hf ltac:(rewrite zlen_app; lia)) in E2.
  destruct (run_two split wbsize a b n w n1 s1 Hs ltac:(lia) Hf Hg ltac:(lia) Hl E1) as (k & w1 & s & s' & A1 & Fk & A2).
  destruct (write_end_inv split wbsize a n [] w k s Hs Hf Hg Ha ltac:(change (zlen []) with 0; lia) A1) as (_ & _ & _ & _ & _ & _ & _ & _ & _ & _ & Gk).
  destruct Hf as (cs & F & Ec). assert (Z0 : zlen (concat cs) = 0) by (rewrite <- Ec; reflexivity).
  assert (S0 : solid cs = []). { clear - Ec. induction cs as [|[|x c] r IH]; [reflexivity|exact (IH Ec)|discriminate]. }
  rewrite <- Z0 in A1, E2. destruct (write_chunks _ _ _ _ _ _ _ _ Hs F Hg Ha ltac:(lia) A1) as (c1 & F1 & S1). destruct (write_chunks _ _ _ _ _ _ _ _ Hs F Hg Hab ltac:(rewrite zlen_app; lia) E2) as (c2 & F2 & S2).
  destruct Fk as (ck & Fk & Ek). rewrite (file_dag_fun _ _ _ Fk F1) in Ek. rewrite Ek in A2 at 1. assert (Zk : zlen (concat c1) = zlen a) by (now rewrite <- Ek).
  destruct (write_chunks _ _ _ _ _ _ _ _ Hs F1 Gk Hb ltac:(lia) A2) as (c3 & F3 & S3). rewrite (file_dag_fun _ _ _ F3 F2) in S3. rewrite S0 in S1, S2. cbn [app] in S1, S2. congruence.
Qed.
Lemma flushed_needs_fixed : forall s split wbsize n a b w n1 s1 n2 s2, 0 < s <= BlockSizeLimit -> fixed_size s split -> file_content n [] -> growable K n -> 0 <= wbsize < zlen a -> b <> [] -> zlen a + zlen b < 9223372036854775808 ->
  (do _ <- writes split wbsize [a; b] ;; mGetNode split) (NewDagModifier n, w) = (Ok n1, s1) -> (do _ <- writes split wbsize [a ++ b] ;; mGetNode split) (NewDagModifier n, w) = (Ok n2, s2) ->
  zlen a mod s <> 0 -> n1 <> n2.
Proof.
  intros s split wbsize n a b w n1 s1 n2 s2 Hs Hx Hf Hg Hw Hb Hl E1 E2 Hz H. apply Hz.
  pose proof (flushed_needs _ _ _ _ _ _ _ _ _ _ (fixed_chunker _ _ Hs Hx) Hf Hg Hw Hb Hl E1 E2 H) as X. rewrite !(cut_solid s) in X by (try lia; apply Hx). rewrite (fixed_app s split a b ltac:(lia) Hx Hb) in X. exact X.
Qed.

Lemma appended_ex x : match x : res node * node * world with (Ok a, b, _) => node_eqb a b | _ => false end = true -> exists root w', x = (Ok root, root, w').
Proof. destruct x as [[[a| | |] b] w]; try discriminate. intros H. apply node_eqb_eq in H as ->. eauto. Qed.
Lemma needs_case : forall p, In p [mkPrefix 0 112 18 32; mkPrefix 1 112 18 32] -> let n := empty_of p in
  fixed_size 2 (chop 2) /\ chunker_ok (chop 2) /\ file_content n [] /\ growable K n /\ zlen (repeat Byte.x61 701) mod 2 <> 0 /\
  (exists n1 s1, (do _ <- writes (chop 2) 2 [repeat Byte.x61 701; [Byte.x62; Byte.x62]] ;; mGetNode (chop 2)) (NewDagModifier n, full) = (Ok n1, s1)) /\
  (exists n2 s2, (do _ <- writes (chop 2) 2 [repeat Byte.x61 701 ++ [Byte.x62; Byte.x62]] ;; mGetNode (chop 2)) (NewDagModifier n, full) = (Ok n2, s2)).
Proof.
  intros p H n. pose proof (chop_fixed 2 ltac:(lia)) as F2. pose proof (fixed_chunker 2 _ ltac:(unfold BlockSizeLimit; lia) F2) as C2. pose proof (empty_made p H) as M. pose proof (made_content _ _ M) as Hf. cbn [concat] in Hf. pose proof (made_growable _ _ M) as Hg.
  assert (L : zlen (repeat Byte.x61 701) = 701) by (rewrite zlen_repeat; reflexivity). assert (L2 : zlen [Byte.x62; Byte.x62] = 2) by reflexivity.
  split; [exact F2|]. split; [exact C2|]. split; [exact Hf|]. split; [exact Hg|]. split; [rewrite L; discriminate|]. split.
  - apply run_two_ok; [exact C2|rewrite L; lia|exact Hf|exact Hg|apply full_good|rewrite L, L2; reflexivity].
  - rewrite run_one; [|lia|exact Hf|rewrite zlen_app, L, L2; reflexivity].
    destruct (write_back_ok (chop 2) 2 (repeat Byte.x61 701 ++ [Byte.x62; Byte.x62]) _ _ full C2 Hf Hg (full_good _)) as (n1 & m1 & w1 & E); [rewrite zlen_app, L, L2; reflexivity|]. change (zlen []) with 0 in E. eauto.
Qed.
