(** What the root is when the buffer is written back between two writes. *)
From Verif Require Import Base Pb PbProofs FSNode FSNodeProofs Dag DagProofs Builder Balanced Trickle Importer Reader Modifier
  SpecFile SpecAppend SpecModifier BuilderProofs BalancedProofs ImportProofs AppendProofs AppendRun AppendSame SpecShare ShareProofs ReaderWitness SizesWitness ModifierRun ModifierProofs TruncateProofs ModifierFacts ShortenProofs TraceProofs RewriteProofs DetProofs LeakProofs SpecHole HoleProofs SpecPieces PiecesProofs.

Lemma import_growable f dbp fi xs w n w' : pr_maxlinks dbp = K -> (length xs < f)%nat -> trickle_import f dbp fi (map EvData xs) w = (Ok n, w') -> growable K n.
Proof.
  intros Hk Hf H. destruct (trickle_facts f dbp fi _ w n w' ltac:(rewrite Hk; exact K_pos) ltac:(rewrite map_length; exact Hf) H) as (_ & _ & _ & _ & T & _). rewrite Hk in T.
  eapply trickle_loose; [| | |exact T]; [unfold depthRepeat; lia|auto|]. intros m (b & ls & g & -> & H1 & H2 & H3). do 4 eexists. split; [reflexivity|]. split; [exact Logic.I|]. split; [exact H1|]. split; [exact H2|exact H3].
Qed.
Lemma made_growable xs n : made xs n -> growable K n.
Proof. intros (f & fi & w & w' & Hf & H). exact (import_growable _ (grow_params n) _ _ _ _ _ eq_refl Hf H). Qed.
Lemma made_imports xs n : made xs n -> imports xs n.
Proof. intros (f & fi & w & w' & Hf & H). right. exists f, (grow_params n), fi, w, w'. split; [exact K_pos|]. auto. Qed.
Lemma made_content xs n : made xs n -> file_content n (concat xs).
Proof. intros H. apply made_imports, imports_dag in H as (cs & F & [(-> & ->)| ->]); eexists; split; eauto. Qed.
Lemma made_canonical xs n : made xs n -> canonical_leaves n.
Proof. intros (f & fi & w & w' & Hf & H). apply imports_fine. right. eauto 9. Qed.
Lemma made_same xs n1 n2 : made xs n1 -> made xs n2 -> node_prefix n1 = node_prefix n2 -> n1 = n2.
Proof.
  intros (f & fi & w & w' & _ & H) (f2 & fi2 & w2 & w2' & _ & H2) E. assert (G : grow_params n1 = grow_params n2) by (unfold grow_params, NewDagModifier; cbn [m_raw m_prefix]; now rewrite E). rewrite G in H. eapply trickle_det; eassumption.
Qed.

Lemma made_write split wbsize b xs n w n1 s1 : chunker_ok split -> made xs n -> b <> [] -> zlen (concat xs) + zlen b < 9223372036854775808 -> zlen xs + zlen (split b) <= 2 * K -> source_ok BlockSizeLimit xs ->
  write_back split wbsize b (zlen (concat xs)) n w = (Ok n1, s1) -> made (xs ++ split b) n1 /\ node_prefix n1 = node_prefix n.
Proof.
  intros Hs Hm Hb Hl Hk Hx E. pose proof (made_content _ _ Hm) as Hf. pose proof (made_canonical _ _ Hm) as Hc. pose proof (made_growable _ _ Hm) as Hg. destruct Hm as (f & fi & v & v' & Hfl & Him).
  destruct (write_end_inv _ _ _ _ _ _ _ _ Hs Hf Hg Hb Hl E) as (k & f2 & r2 & u & u' & Sh & Hk' & Gk & A & Hf1 & G1).
  assert (k = n) as ->.
  { destruct Hf as (cs & F1 & X1), Hk' as (cs' & F2 & X2). eapply shape_det; [exact Hc|exact Sh|apply shape_refl|exact F2|exact F1|eauto|congruence]. }
  assert (P : node_prefix n1 = node_prefix n).
  { pose proof (zlen_nonneg b). pose proof (zlen_nonneg (concat xs)). unfold write_back in E. rewrite (WriteAt_end _ _ _ _ _ _ Hf Hl) in E.
    assert (S := Sync_spec split Hs (written n (zlen (concat xs)) b) w n (concat xs) b eq_refl Hf eq_refl ltac:(lia) ltac:(cbn; lia) ltac:(cbn; lia) (fun _ => Hg)). unfold bind at 1 in E.
    destruct (wbsize <? zlen b).
    - destruct (Sync split (written n (zlen (concat xs)) b, w)) as [[?|e| |] [m' w']]; try discriminate. destruct S as (n' & -> & _ & _ & _ & S & _). cbn [ret] in E. unfold mGetNode, bind in E. rewrite Sync_none in E by reflexivity. cbn [fst m_node] in E. injection E as <- _. exact S.
    - cbn [ret] in E. unfold mGetNode, bind in E. destruct (Sync split (written n (zlen (concat xs)) b, w)) as [[?|e| |] [m' w']]; try discriminate. destruct S as (n' & -> & _ & _ & _ & S & _). cbn [fst m_node] in E. injection E as <- _. exact S. }
  split; [|exact P]. assert (G : grow_params n1 = grow_params n) by (unfold grow_params, NewDagModifier; cbn [m_raw m_prefix]; now rewrite P). unfold made. rewrite G.
  destruct (trickle_succeeds (S (length (xs ++ split b))) (grow_params n) false (xs ++ split b) full K_pos ltac:(lia) ltac:(apply Forall_app; split; [exact Hx|apply Hs]) (fun _ => eq_refl) ltac:(discriminate)) as (r' & w' & R).
  assert (n1 = r') as -> by (eapply (app_same f f2 r2 _ (grow_params n)); [exact K_pos|exact Hk|exact Him|exact A|exact R]).
  exists (S (length (xs ++ split b))), false, full, w'. split; [lia|exact R].
Qed.

(** ** Two calls *)

Lemma zlen_pos {A} (l : list A) : 0 < zlen l -> l <> []. Proof. intros H ->. change (zlen []) with 0 in H. lia. Qed.
Lemma run_one split wbsize a n w : 0 <= wbsize -> file_content n [] -> zlen a < 9223372036854775808 ->
  (do _ <- writes split wbsize [a] ;; mGetNode split) (NewDagModifier n, w) = write_back split wbsize a 0 n w.
Proof.
  intros Hw Hf Ha. pose proof (zlen_nonneg a). pose proof (WriteAt_end split wbsize n [] a w Hf) as E. change (zlen []) with 0 in E. unfold write_back. rewrite E by lia. cbn [writes]. unfold bind at 1 2.
  rewrite (mWrite_is split wbsize a 0 n) by reflexivity. change (m_off (NewDagModifier n) + zlen a) with (zlen a). rewrite u64_small by (unfold two64; lia). fold (written n 0 a).
  unfold bind. destruct ((if wbsize <? zlen a then Sync split else ret tt) _) as [[u'|e| |] s]; reflexivity.
Qed.
Lemma run_two split wbsize a b n w n2 s2 : chunker_ok split -> wbsize < zlen a -> file_content n [] -> growable K n -> 0 <= wbsize -> zlen a + zlen b < 9223372036854775808 ->
  (do _ <- writes split wbsize [a; b] ;; mGetNode split) (NewDagModifier n, w) = (Ok n2, s2) ->
  exists n1 w1 s1 s2', write_back split wbsize a 0 n w = (Ok n1, s1) /\ file_content n1 a /\ write_back split wbsize b (zlen a) n1 w1 = (Ok n2, s2').
Proof.
  intros Hs Hw Hf Hg H0 Hl E. pose proof (zlen_nonneg a) as Ha. pose proof (zlen_nonneg b) as Hb. cbn [writes] in E. unfold bind at 1 2 in E.
  rewrite (mWrite_is split wbsize a 0 n) in E by reflexivity. change (m_off (NewDagModifier n) + zlen a) with (zlen a) in E. rewrite u64_small in E by (unfold two64; lia). fold (written n 0 a) in E.
  replace (wbsize <? zlen a) with true in E by lia.
  assert (S := Sync_spec split Hs (written n 0 a) w n [] a eq_refl Hf eq_refl ltac:(reflexivity) ltac:(cbn; lia) ltac:(cbn; lia) (fun _ => Hg)). unfold bind at 1 in E.
  pose proof (WriteAt_end split wbsize n [] a w Hf) as E0. change (zlen []) with 0 in E0. specialize (E0 ltac:(lia)). replace (wbsize <? zlen a) with true in E0 by lia. unfold bind at 1 in E0.
  destruct (Sync split (written n 0 a, w)) as [[[]|e| |] [m' w']] eqn:Es; try discriminate. destruct S as (n1 & -> & S1 & _ & _ & S4 & _). cbn [written m_start] in S1.
  exists n1, w', (mkMod (Some n1) (m_start (written n 0 a) + zlen a) (m_off (written n 0 a)) None (m_prefix (written n 0 a)) (m_raw (written n 0 a)) None, w').
  assert (F1 : file_content n1 a) by (rewrite put_ow, ow_past in S1 by (change (zlen []) with 0; lia); exact S1).
  assert (W2 : write_back split wbsize b (zlen a) n1 w' = finish split wbsize b (written n1 (zlen a) b, w')).
  { unfold write_back. rewrite (WriteAt_end _ _ _ _ _ _ F1 Hl). unfold finish, bind. destruct ((if wbsize <? zlen b then Sync split else ret tt) _) as [[u'|e| |] s]; reflexivity. }
  exists (snd (write_back split wbsize b (zlen a) n1 w')). split; [|split; [exact F1|]].
  { unfold write_back. rewrite E0. cbn [ret]. unfold mGetNode, bind. rewrite Sync_none by reflexivity. reflexivity. }
  rewrite W2. cbn [ret] in E. unfold bind at 1 in E. unfold ret at 1 in E. rewrite (mWrite_is split wbsize b (zlen a) n1) in E by reflexivity. cbn [m_off m_prefix m_raw written] in E.
  assert (B : blind (finish split wbsize b)) by (unfold finish; apply bind_blind; [apply if_blind; [apply Sync_blind|apply ret_blind]|]; intros []; apply mGetNode_blind).
  specialize (B (u64 (zlen a + zlen b)) (written n1 (zlen a) b) w').
  assert (Q : m_set_off (u64 (zlen a + zlen b)) (written n1 (zlen a) b) = mkMod (Some n1) (zlen a) (u64 (zlen a + zlen b)) (Some b) (m_prefix (NewDagModifier n)) (m_raw (NewDagModifier n)) None).
  { unfold written, m_set_off, NewDagModifier. cbn [m_node m_start m_buf m_prefix m_raw m_read]. now rewrite S4. }
  rewrite Q in B. assert (E' : finish split wbsize b (mkMod (Some n1) (zlen a) (u64 (zlen a + zlen b)) (Some b) (m_prefix (NewDagModifier n)) (m_raw (NewDagModifier n)) None, w') = (Ok n2, s2)).
  { rewrite <- E. unfold finish, bind. destruct ((if wbsize <? zlen b then Sync split else ret tt) _) as [[u'|e| |] s]; reflexivity. }
  rewrite B in E'. unfold moved in E'. destruct (finish split wbsize b (written n1 (zlen a) b, w')) as [r s]. cbn [fst snd] in *. injection E' as -> _. reflexivity.
Qed.

Lemma flushed : forall split wbsize n a b w n1 s1 n2 s2, chunker_ok split -> made [] n -> 0 <= wbsize < zlen a -> b <> [] -> zlen a + zlen b < 9223372036854775808 ->
  zlen (split a) + zlen (split b) <= 2 * K -> zlen (split (a ++ b)) <= 2 * K ->
  (do _ <- writes split wbsize [a; b] ;; mGetNode split) (NewDagModifier n, w) = (Ok n1, s1) -> (do _ <- writes split wbsize [a ++ b] ;; mGetNode split) (NewDagModifier n, w) = (Ok n2, s2) ->
  (n1 = n2 <-> split a ++ split b = split (a ++ b)).
Proof.
  intros split wbsize n a b w n1 s1 n2 s2 Hs Hm Hw Hb Hl K1 K2 E1 E2. pose proof (made_content _ _ Hm) as Hf. cbn [concat] in Hf. pose proof (zlen_nonneg b). assert (Ha : a <> []) by (apply zlen_pos; lia). assert (Hab : a ++ b <> []) by now destruct a.
  rewrite (run_one split wbsize (a ++ b) n w ltac:(lia) Hf ltac:(rewrite zlen_app; lia)) in E2.
  destruct (made_write split wbsize (a ++ b) [] n w n2 s2 Hs Hm Hab ltac:(cbn [concat]; change (zlen []) with 0; rewrite zlen_app; lia) ltac:(change (zlen []) with 0; lia) (Forall_nil _) E2) as (M2 & P2). cbn [app] in M2.
  destruct (run_two split wbsize a b n w n1 s1 Hs ltac:(lia) Hf (made_growable _ _ Hm) ltac:(lia) Hl E1) as (k & w1 & s & s' & A1 & _ & A2).
  destruct (made_write split wbsize a [] n w k s Hs Hm Ha ltac:(cbn [concat]; change (zlen []) with 0; lia) ltac:(pose proof (zlen_nonneg (split b)); change (zlen []) with 0; lia) (Forall_nil _) A1) as (M1 & P1). cbn [app] in M1.
  rewrite <- (proj1 (Hs a)) in A2 at 1. destruct (made_write split wbsize b (split a) k w1 n1 s' Hs M1 Hb ltac:(rewrite (proj1 (Hs a)); lia) K1 (proj2 (Hs a)) A2) as (M3 & P3).
  split.
  - intros <-. destruct (import_injective _ _ _ (made_imports _ _ M3) (made_imports _ _ M2)) as [X|(X & _)]; [exact X|]. rewrite concat_app, (proj1 (Hs a)), (proj1 (Hs b)) in X. contradiction.
  - intros X. rewrite X in M3. eapply made_same; [exact M3|exact M2|congruence].
Qed.

(** ** Chunks of a fixed size *)

Lemma full_len s l : Forall (fun x : bytes => zlen x = s) l -> zlen (concat l) = s * zlen l.
Proof. induction 1 as [|x l H _ IH]; [change (0 = s * 0); lia|]. cbn [concat]. rewrite zlen_app, zlen_cons, H, IH. lia. Qed.
Lemma cut_unique s : 0 < s -> forall l1 l2, cut_every s l1 -> cut_every s l2 -> concat l1 = concat l2 -> l1 = l2.
Proof.
  intros Hs l1 l2 (f1 & e1 & -> & F1 & T1) (f2 & e2 & -> & F2 & T2). revert f2 F2. induction F1 as [|x f1 Hx _ IH]; intros f2 F2 E.
  - destruct F2 as [|y f2 Hy F2].
    + cbn [app] in *. destruct T1 as [->|(x1 & -> & H1)], T2 as [->|(x2 & -> & H2)]; cbn [concat] in E; rewrite ?app_nil_r in E; subst; try reflexivity; change (zlen []) with 0 in *; lia.
    + exfalso. apply (f_equal zlen) in E. cbn [app concat] in E. rewrite zlen_app, Hy in E. pose proof (zlen_nonneg (concat (f2 ++ e2))). destruct T1 as [->|(x1 & -> & H1)]; cbn [concat] in E; rewrite ?app_nil_r in E; change (zlen []) with 0 in *; unfold bytes in *; lia.
  - destruct F2 as [|y f2 Hy F2].
    + exfalso. apply (f_equal zlen) in E. cbn [app concat] in E. rewrite zlen_app, Hx in E. pose proof (zlen_nonneg (concat (f1 ++ e1))). destruct T2 as [->|(x1 & -> & H1)]; cbn [concat] in E; rewrite ?app_nil_r in E; change (zlen []) with 0 in *; unfold bytes in *; lia.
    + cbn [app concat] in *. apply AppendSame.app_inj_len in E as (-> & E); [|unfold zlen in *; lia]. f_equal. now apply IH.
Qed.
Lemma cut_before s l x r : cut_every s (l ++ x :: r) -> Forall (fun y => zlen y = s) l.
Proof.
  intros (f & e & E & F & T). assert (L : exists m, f = l ++ m).
  { destruct T as [->|(z & -> & _)]; [rewrite app_nil_r in E; eauto|]. destruct (exists_last (l := x :: r) ltac:(discriminate)) as (r' & z' & Er). rewrite Er in E. rewrite app_assoc in E. apply app_inj_tail in E as (<- & _). eauto. }
  destruct L as (m & ->). apply Forall_app in F. tauto.
Qed.
Lemma cut_count s l : 0 < s -> cut_every s l -> s * zlen l <= zlen (concat l) + s.
Proof.
  intros Hs (f & e & -> & F & T). rewrite concat_app, !zlen_app, (full_len _ _ F). destruct T as [->|(z & -> & H)]; [cbn [concat]; change (zlen []) with 0; lia|]. cbn [concat]. rewrite app_nil_r. change (zlen [z]) with 1. lia.
Qed.
Lemma fixed_chunker s split : 0 < s <= BlockSizeLimit -> fixed_size s split -> chunker_ok split.
Proof.
  intros Hs H b. destruct (H b) as (E & f & e & Es & F & T). split; [exact E|]. rewrite Es. apply Forall_app. split; [eapply Forall_impl; [|exact F]; cbn; intros; lia|]. destruct T as [->|(z & -> & Hz)]; repeat constructor. lia.
Qed.
Lemma fixed_app s split a b : 0 < s -> fixed_size s split -> b <> [] -> (split a ++ split b = split (a ++ b) <-> zlen a mod s = 0).
Proof.
  intros Hs H Hb. destruct (H a) as (Ea & Ca), (H b) as (Eb & Cb), (H (a ++ b)) as (Eab & Cab). split.
  - intros E. rewrite <- E in Cab. destruct (split b) as [|x r] eqn:Es; [subst b; contradiction|]. apply cut_before, full_len in Cab. rewrite Ea in Cab. rewrite Cab, Z.mul_comm. apply Z.mod_mul. lia.
  - intros M. apply (cut_unique s Hs); [|exact Cab|rewrite concat_app, Ea, Eb, Eab; reflexivity]. destruct Ca as (f & e & Es & F & T), Cb as (f' & e' & Es' & F' & T').
    destruct T as [->|(z & -> & Hz)].
    + rewrite app_nil_r in Es. rewrite Es, Es'. exists (f ++ f'), e'. split; [apply app_assoc|]. split; [apply Forall_app; auto|exact T'].
    + exfalso. rewrite <- Ea, Es, concat_app, zlen_app, (full_len _ _ F) in M. cbn [concat] in M. rewrite app_nil_r in M. rewrite Z.add_comm, Z.mul_comm, Z.mod_add, Z.mod_small in M by lia. lia.
Qed.

Lemma flushed_fixed : forall s split wbsize n a b w n1 s1 n2 s2, 0 < s <= BlockSizeLimit -> fixed_size s split -> made [] n -> 0 <= wbsize < zlen a -> b <> [] ->
  zlen a + zlen b <= s * (2 * K - 2) ->
  (do _ <- writes split wbsize [a; b] ;; mGetNode split) (NewDagModifier n, w) = (Ok n1, s1) -> (do _ <- writes split wbsize [a ++ b] ;; mGetNode split) (NewDagModifier n, w) = (Ok n2, s2) ->
  (n1 = n2 <-> zlen a mod s = 0).
Proof.
  intros s split wbsize n a b w n1 s1 n2 s2 Hs Hx Hm Hw Hb Hl E1 E2. pose proof (fixed_chunker _ _ Hs Hx) as Hc. pose proof (zlen_nonneg b).
  pose proof (cut_count s _ ltac:(lia) (proj2 (Hx a))) as C1. pose proof (cut_count s _ ltac:(lia) (proj2 (Hx b))) as C2. pose proof (cut_count s _ ltac:(lia) (proj2 (Hx (a ++ b)))) as C3.
  rewrite (proj1 (Hx a)) in C1. rewrite (proj1 (Hx b)) in C2. rewrite (proj1 (Hx (a ++ b))), zlen_app in C3.
  rewrite <- (fixed_app s split a b ltac:(lia) Hx Hb). eapply flushed; [exact Hc|exact Hm|exact Hw|exact Hb| | | |exact E1|exact E2].
  - unfold BlockSizeLimit in Hs. assert (2 * K - 2 <= 1000000) by (vm_compute; discriminate). nia.
  - apply (Zmult_le_reg_r _ _ s); lia.
  - apply (Zmult_le_reg_r _ _ s); lia.
Qed.

(** ** The buffer and the chunks of the code *)

Fixpoint chop_n (fuel s : nat) (b : bytes) : list bytes :=
  match fuel, b with
  | O, _ | _, [] => []
  | S fuel', _ => firstn s b :: chop_n fuel' s (skipn s b)
  end.
Definition chop (s : Z) (b : bytes) : list bytes := chop_n (length b) (Z.to_nat s) b.
Lemma chop_fixed s : 0 < s -> fixed_size s (chop s).
Proof.
  intros Hs b. unfold chop. assert (H : forall f b, (length b <= f)%nat -> concat (chop_n f (Z.to_nat s) b) = b /\ cut_every s (chop_n f (Z.to_nat s) b)); [|now apply H].
  clear b. induction f as [|f IH]; intros b Hb.
  - destruct b; [|cbn in Hb; lia]. split; [reflexivity|]. exists [], []. auto.
  - destruct b as [|x b]; [split; [reflexivity|]; exists [], []; auto|]. change (chop_n (S f) (Z.to_nat s) (x :: b)) with (firstn (Z.to_nat s) (x :: b) :: chop_n f (Z.to_nat s) (skipn (Z.to_nat s) (x :: b))).
    set (y := x :: b) in *. assert (Ly : (0 < length y)%nat) by (subst y; cbn; lia).
    destruct (IH (skipn (Z.to_nat s) y)) as (I1 & f' & e' & I2 & I3 & I4); [rewrite skipn_length; lia|]. cbn [concat]. rewrite I1, firstn_skipn. split; [reflexivity|]. rewrite I2.
    destruct (Nat.le_gt_cases (Z.to_nat s) (length y)) as [H|H].
    + exists (firstn (Z.to_nat s) y :: f'), e'. split; [reflexivity|]. split; [|exact I4]. constructor; [|exact I3]. unfold zlen. rewrite firstn_length. lia.
    + rewrite I2, skipn_all2 in I1 by lia. assert (f' ++ e' = []) as ->.
      { destruct f' as [|z f']; [destruct I4 as [->|(z & -> & Hz)]; [reflexivity|]|]; cbn [app concat] in I1; [rewrite app_nil_r in I1; subst z; change (zlen []) with 0 in Hz; lia|]. apply app_eq_nil in I1 as (-> & _). inversion I3; subst. change (zlen []) with 0 in *. lia. }
      exists [], [firstn (Z.to_nat s) y]. split; [reflexivity|]. split; [constructor|]. right. eexists. split; [reflexivity|]. unfold zlen. rewrite firstn_length. lia.
Qed.

Lemma finish_ok split wbsize b n c w : chunker_ok split -> file_content n c -> growable K n -> good_store w n -> zlen c + zlen b < 9223372036854775808 ->
  exists n' m' w', finish split wbsize b (written n (zlen c) b, w) = (Ok n', (m', w')) /\ good_store w' n' /\ file_content n' (c ++ b) /\ growable K n'.
Proof.
  intros Hs Hf Hg Hgood Hl. pose proof (zlen_nonneg c). pose proof (zlen_nonneg b).
  assert (S := Sync_spec split Hs (written n (zlen c) b) w n c b eq_refl Hf eq_refl ltac:(lia) ltac:(cbn; lia) ltac:(cbn; lia) (fun _ => Hg)). unfold finish, bind, mGetNode.
  destruct (Sync split (written n (zlen c) b, w)) as [[[]|e| |] [m' w']] eqn:Es; try contradiction. destruct S as (n' & -> & S1 & S2 & _ & _ & S5 & _). cbn [written m_start] in S1. rewrite put_ow, ow_past in S1 by lia. replace (zlen c - zlen c) with 0 in S1 by lia.
  exists n'. do 2 eexists. split; [|split; [exact (derived_good _ _ _ _ S2 Hgood)|split; [exact S1|exact (S5 Hg)]]].
  destruct (wbsize <? zlen b); [rewrite Es; unfold bind; rewrite Sync_none by reflexivity; reflexivity|]. cbn [ret]. unfold bind. rewrite Es. reflexivity.
Qed.
Lemma write_back_ok split wbsize b n c w : chunker_ok split -> file_content n c -> growable K n -> good_store w n -> zlen c + zlen b < 9223372036854775808 ->
  exists n' m' w', write_back split wbsize b (zlen c) n w = (Ok n', (m', w')).
Proof.
  intros Hs Hf Hg Hgood Hl. destruct (finish_ok split wbsize b n c w Hs Hf Hg Hgood Hl) as (n' & m' & w' & E & _). exists n', m', w'. rewrite <- E. unfold write_back. rewrite (WriteAt_end _ _ _ _ _ _ Hf Hl). unfold finish, bind.
  destruct ((if wbsize <? zlen b then Sync split else ret tt) _) as [[u'|e| |] s]; reflexivity.
Qed.
Lemma run_two_ok split wbsize a b n w : chunker_ok split -> 0 <= wbsize < zlen a -> file_content n [] -> growable K n -> good_store w n -> zlen a + zlen b < 9223372036854775808 ->
  exists n' s', (do _ <- writes split wbsize [a; b] ;; mGetNode split) (NewDagModifier n, w) = (Ok n', s').
Proof.
  intros Hs Hw Hf Hg Hgood Hl. pose proof (zlen_nonneg a) as Ha. pose proof (zlen_nonneg b) as Hb. cbn [writes]. unfold bind at 1 2.
  rewrite (mWrite_is split wbsize a 0 n) by reflexivity. change (m_off (NewDagModifier n) + zlen a) with (zlen a). rewrite u64_small by (unfold two64; lia). fold (written n 0 a). replace (wbsize <? zlen a) with true by lia.
  assert (S := Sync_spec split Hs (written n 0 a) w n [] a eq_refl Hf eq_refl ltac:(reflexivity) ltac:(cbn; lia) ltac:(cbn; lia) (fun _ => Hg)). unfold bind at 1.
  destruct (Sync split (written n 0 a, w)) as [[[]|e| |] [m' w']] eqn:Es; try contradiction. destruct S as (n1 & -> & S1 & S2 & _ & S4 & S5 & _). cbn [written m_start] in S1.
  assert (F1 : file_content n1 a) by (rewrite put_ow, ow_past in S1 by (change (zlen []) with 0; lia); exact S1).
  cbn [ret]. unfold bind at 1. unfold ret at 1. rewrite (mWrite_is split wbsize b (zlen a) n1) by reflexivity. cbn [m_off m_prefix m_raw written].
  assert (B : blind (finish split wbsize b)) by (unfold finish; apply bind_blind; [apply if_blind; [apply Sync_blind|apply ret_blind]|]; intros []; apply mGetNode_blind).
  specialize (B (u64 (zlen a + zlen b)) (written n1 (zlen a) b) w').
  assert (Q : m_set_off (u64 (zlen a + zlen b)) (written n1 (zlen a) b) = mkMod (Some n1) (zlen a) (u64 (zlen a + zlen b)) (Some b) (m_prefix (NewDagModifier n)) (m_raw (NewDagModifier n)) None).
  { unfold written, m_set_off, NewDagModifier. cbn [m_node m_start m_buf m_prefix m_raw m_read]. now rewrite S4. }
  destruct (finish_ok split wbsize b n1 a w' Hs F1 (S5 Hg) (derived_good _ _ _ _ S2 Hgood) Hl) as (n2 & m2 & w2 & E & _). rewrite Q, E in B. unfold moved in B. cbn [fst snd] in B. exists n2, (m_set_off (u64 (zlen a + zlen b)) m2, w2). refine (eq_trans _ B).
  unfold finish, bind. destruct ((if wbsize <? zlen b then Sync split else ret tt) _) as [[u'|e| |] s]; reflexivity.
Qed.

Definition import_nothing (p : prefix) : res node * world := trickle_import 1 (mkParams K (0 <? p_version p) (Some p) false) false [] full.
Definition empty_of (p : prefix) : node := ok_node (fst (import_nothing p)).
Lemma empty_made p : In p [mkPrefix 0 112 18 32; mkPrefix 1 112 18 32] -> made [] (empty_of p).
Proof.
  intros H. exists 1%nat, false, full, (snd (import_nothing p)). split; [cbn; lia|].
  destruct H as [<-|[<-|[]]]; vm_compute; reflexivity.
Qed.

Lemma pieces_differ : exists split n a b w n1 s1 n2 s2, fixed_size 262144 split /\ made [] n /\
  (do _ <- writes split 2097152 [a; b] ;; mGetNode split) (NewDagModifier n, w) = (Ok n1, s1) /\ (do _ <- writes split 2097152 [a ++ b] ;; mGetNode split) (NewDagModifier n, w) = (Ok n2, s2) /\ n1 <> n2.
Proof.
  pose proof (chop_fixed 262144 ltac:(lia)) as Hx. pose proof (fixed_chunker 262144 _ ltac:(unfold BlockSizeLimit; lia) Hx) as Hc. pose proof (empty_made (mkPrefix 1 112 18 32) ltac:(cbn; auto)) as Hm. pose proof (made_content _ _ Hm) as Hf. cbn [concat] in Hf.
  remember (repeat Byte.x61 (Z.to_nat 2097153)) as a eqn:Ea. assert (La : zlen a = 2097153) by (rewrite Ea, zlen_repeat; lia). clear Ea. remember [Byte.x62] as b eqn:Eb. assert (Lb : zlen b = 1) by now rewrite Eb. assert (Hb : b <> []) by now rewrite Eb. clear Eb.
  destruct (run_two_ok (chop 262144) 2097152 a b _ full Hc ltac:(lia) Hf (made_growable _ _ Hm) (full_good _) ltac:(lia)) as (n1 & s1 & E1).
  destruct (write_back_ok (chop 262144) 2097152 (a ++ b) _ [] full Hc Hf (made_growable _ _ Hm) (full_good _) ltac:(rewrite zlen_app; change (zlen []) with 0; lia)) as (n2 & m2 & w2 & E2). change (zlen []) with 0 in E2.
  rewrite <- (run_one (chop 262144) 2097152 (a ++ b) _ full ltac:(lia) Hf ltac:(rewrite zlen_app; lia)) in E2.
  exists (chop 262144), (empty_of (mkPrefix 1 112 18 32)), a, b, full, n1, s1, n2, (m2, w2). split; [exact Hx|]. split; [exact Hm|]. split; [exact E1|]. split; [exact E2|].
  intros E. apply (flushed_fixed 262144 (chop 262144) 2097152 _ a b full n1 s1 n2 (m2, w2) ltac:(unfold BlockSizeLimit; lia) Hx Hm ltac:(lia) Hb) in E; [|change K with 174; lia|exact E1|exact E2]. rewrite La in E. discriminate.
Qed.
