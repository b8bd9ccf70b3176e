(** Histories of edits and the chunks of the file. *)
From Verif Require Import Base Pb PbProofs FSNode FSNodeProofs Dag DagProofs Builder Balanced Trickle Importer Reader Modifier
  SpecFile SpecAppend SpecModifier BuilderProofs BalancedProofs ImportProofs AppendProofs AppendRun SpecShare ShareProofs ReaderWitness ModifierRun ModifierProofs TruncateProofs ModifierFacts ShortenProofs TraceProofs RewriteProofs DetProofs LeakProofs SpecHole HoleProofs SpecPieces PiecesProofs FlushProofs OnwardProofs ChunksProofs OverEndProofs SpecEvolve.

Lemma solid_lens : forall xs ys : list bytes, map zlen xs = map zlen ys -> map zlen (solid xs) = map zlen (solid ys).
Proof.
  induction xs as [|x xs IH]; intros [|y ys] H; try discriminate; [reflexivity|]. injection H as Hx H. specialize (IH _ H). unfold solid in *. cbn [filter].
  destruct x as [|a x], y as [|b y]; [exact IH|exfalso; rewrite zlen_cons in Hx; pose proof (zlen_nonneg y); change (zlen []) with 0 in Hx; lia|exfalso; rewrite zlen_cons in Hx; pose proof (zlen_nonneg x); change (zlen []) with 0 in Hx; lia|].
  cbn [map]. congruence.
Qed.
(** The chunk a position is in. *)
Lemma chunk_at : forall (cs : list bytes) size, 0 <= size < zlen (concat cs) -> exists xs x ys, cs = xs ++ x :: ys /\ zlen (concat xs) <= size < zlen (concat xs) + zlen x.
Proof.
  induction cs as [|c r IH]; intros size H; [change (zlen (concat [])) with 0 in H; lia|]. cbn [concat] in H. rewrite zlen_app in H.
  destruct (Z_lt_ge_dec size (zlen c)) as [L|L]; [exists [], c, r; split; [reflexivity|]; change (zlen (concat [])) with 0; lia|].
  destruct (IH (size - zlen c) ltac:(unfold bytes in *; lia)) as (xs & x & ys & -> & Hx). exists (c :: xs), x, ys. split; [reflexivity|]. cbn [concat]. rewrite zlen_app. unfold bytes in *; lia.
Qed.
Lemma chunk_at_one : forall (xs : list bytes) x ys xs' x' ys' size, xs ++ x :: ys = xs' ++ x' :: ys' -> zlen (concat xs) <= size < zlen (concat xs) + zlen x -> zlen (concat xs') <= size < zlen (concat xs') + zlen x' -> xs = xs' /\ x = x'.
Proof.
  induction xs as [|a xs IH]; intros x ys [|a' xs'] x' ys' size E H H'; cbn [app] in E.
  - injection E as -> _. auto.
  - exfalso. injection E as -> _. cbn [concat] in *. rewrite zlen_app in H'. pose proof (zlen_nonneg (concat xs')). change (zlen []) with 0 in H. unfold bytes in *; lia.
  - exfalso. injection E as -> _. cbn [concat] in *. rewrite zlen_app in H. pose proof (zlen_nonneg (concat xs)). change (zlen []) with 0 in H'. unfold bytes in *; lia.
  - injection E as -> E. cbn [concat] in H, H'. rewrite zlen_app in H, H'. destruct (IH x ys xs' x' ys' (size - zlen a') E) as (-> & ->); [unfold bytes in *; lia|unfold bytes in *; lia|auto].
Qed.

Lemma chunk_len (xs : list bytes) x ys : zlen (concat xs) + zlen x <= zlen (concat (xs ++ x :: ys)).
Proof. rewrite concat_app, zlen_app. cbn [concat]. rewrite zlen_app. pose proof (zlen_nonneg (concat ys)). unfold bytes in *; lia. Qed.

(** ** One edit *)

Lemma over_growable split wbsize b off n c w n1 s1 : chunker_ok split -> file_content n c -> growable K n -> 0 <= off <= zlen c -> zlen c < off + zlen b < 9223372036854775808 ->
  write_back split wbsize b off n w = (Ok n1, s1) -> growable K n1.
Proof.
  intros Hs Hf Hg Ho Hl E. unfold write_back in E. rewrite (WriteAt_in split wbsize n _ b off w Hf Ho ltac:(lia) ltac:(lia)) in E. unfold bind at 1 in E.
  assert (X : exists m' w', Sync split (written n off b, w) = (Ok tt, (m', w')) /\ (m_buf m' = None -> m_node m' = Some n1)).
  { destruct (wbsize <? zlen b).
    - destruct (Sync split (written n off b, w)) as [[u|e| |] [m' w']]; try discriminate. destruct u. exists m', w'. split; [reflexivity|]. intros Hn. cbn [ret] in E. unfold mGetNode, bind in E. rewrite Sync_none in E by exact Hn. cbn [fst] in E. destruct (m_node m'); [injection E as -> _; reflexivity|discriminate].
    - cbn [ret] in E. unfold mGetNode, bind in E. destruct (Sync split (written n off b, w)) as [[u|e| |] [m' w']]; try discriminate. destruct u. exists m', w'. split; [reflexivity|]. intros _. cbn [fst] in E. destruct (m_node m'); [injection E as -> _; reflexivity|discriminate]. }
  destruct X as (m' & w' & Es & X).
  assert (S := Sync_spec split Hs (written n off b) w n c b eq_refl Hf eq_refl ltac:(lia) ltac:(cbn; lia) ltac:(cbn; lia) (fun _ => Hg)). rewrite Es in S. destruct S as (n' & E' & _ & _ & _ & _ & S5 & _).
  rewrite E' in X. cbn [m_buf m_node] in X. specialize (X eq_refl). injection X as ->. exact (S5 Hg).
Qed.
Lemma past_growable split wbsize b off n c w n1 s1 : chunker_ok split -> file_content n c -> growable K n -> zlen c < off -> b <> [] -> off + zlen b < 9223372036854775808 ->
  write_back split wbsize b off n w = (Ok n1, s1) -> growable K n1.
Proof.
  intros Hs Hf Hg Ho Hb Hl E. pose proof (zlen_nonneg b). pose proof (zlen_nonneg c).
  pose proof (write_is_grow split wbsize b off n _ w Hf Hg Ho Hl) as X. rewrite E in X. unfold outcome in X. cbn [fst snd] in X. unfold grow_write in X.
  destruct (truncate_to split off n w) as [[n0|e| |] [m0 w0]] eqn:T; try discriminate.
  destruct (write_back split wbsize b off n0 w0) as [r s2] eqn:E2. cbn [fst snd] in X. injection X as X _. subst r.
  pose proof (truncate_to_spec split off n c w Hf ltac:(lia) ltac:(lia) ltac:(intros _; exact Hg)) as TS. rewrite T in TS. destruct TS as (F0 & _ & _ & _ & _ & G0). specialize (G0 Hg).
  assert (L0 : zlen (resize c off) = off) by (unfold resize; rewrite zlen_ztake by (rewrite pad_len; lia); reflexivity).
  rewrite <- L0 in E2. destruct (write_end_inv split wbsize b n0 _ w0 n1 s2 Hs F0 G0 Hb ltac:(unfold bytes in *; lia) E2) as (k & f & rf & v & v' & H1 & H2 & H3 & H4 & H5 & H6). exact H6.
Qed.
Lemma truncate_same split n c w n1 s1 : file_content n c -> zlen c < 9223372036854775808 -> truncate_to split (zlen c) n w = (Ok n1, s1) -> n1 = n.
Proof.
  intros (cs & Hcs & Ec) Hl E. unfold truncate_to, mTruncate in E. unfold bind at 1 in E. rewrite Sync_none in E by reflexivity. unfold bind at 1 in E. pose proof (zlen_nonneg c).
  assert (S : mSize (NewDagModifier n, w) = (Ok (zlen c), (NewDagModifier n, w))).
  { unfold mSize, bind, cur_node, lift, get_mod. cbn [fst snd NewDagModifier m_node m_buf]. rewrite (fileSize_dag n cs Hcs) by (rewrite <- Ec; exact Hl). cbn [fst m_buf]. unfold ret.
    rewrite <- Ec. now rewrite i64_small by (unfold two63; lia). }
  rewrite S, Z.eqb_refl in E. cbn [ret] in E. unfold mGetNode, bind in E. rewrite Sync_none in E by reflexivity. cbn [fst NewDagModifier m_node] in E. now injection E as <- _.
Qed.

Lemma edit_spec split wbsize e n cs w n1 s : chunker_ok split -> file_dag n cs -> zlen (concat cs) < 9223372036854775808 -> growable K n -> possible e -> edit_node split wbsize e n w = (Ok n1, s) ->
  growable K n1 /\ exists rcs, file_dag n1 rcs /\ zlen (concat rcs) < 9223372036854775808 /\ chunks_edit split e (solid cs) (solid rcs).
Proof.
  intros Hs Hf Hl Hg Hp E. assert (Hfc : file_content n (concat cs)) by (exists cs; auto). pose proof (zlen_nonneg (concat cs)) as L0. destruct e as [b off|size]; cbn [edit_node possible] in *.
  - destruct Hp as (Hb & Ho & He). pose proof (zlen_nonneg b) as Lb. destruct (Z_le_gt_dec (off + zlen b) (zlen (concat cs))) as [H|H]; [|destruct (Z_le_gt_dec off (zlen (concat cs))) as [H2|H2]].
    + split.
      { pose proof (write_back_spec split wbsize b off n _ w Hs Hfc Hl Ho H) as S. rewrite E in S. destruct s as [m1 w1]. destruct S as (_ & Sh & _). eapply growable_shape; eassumption. }
      destruct (inside_chunks _ _ _ _ _ _ _ _ _ Hs Hf Hl Ho H E) as (rcs & F & M & C). exists rcs. split; [exact F|].
      split; [rewrite C, !zlen_app, zlen_ztake, zlen_zdrop by (unfold bytes in *; lia); unfold bytes in *; lia|]. apply ce_inside; rewrite ?solid_concat; [exact H|apply solid_lens, M|exact C].
    + assert (H3 : zlen (concat cs) < off + zlen b < 9223372036854775808) by (unfold bytes in *; lia). split; [exact (over_growable _ _ _ _ _ _ _ _ _ Hs Hfc Hg (conj Ho H2) H3 E)|].
      destruct (over_chunks _ _ _ _ _ _ _ _ _ Hs Hf Hg (conj Ho H2) H3 E) as (old & rcs & F & S & M & C). exists rcs. split; [exact F|].
      split; [rewrite <- (solid_concat rcs), S, concat_app, !solid_concat, C, (proj1 (Hs _)), !zlen_app, !zlen_ztake, zlen_zdrop by (unfold bytes in *; lia); unfold bytes in *; lia|].
      rewrite S, <- (solid_concat cs). apply ce_over; rewrite ?solid_concat; [unfold bytes in *; lia|apply solid_lens, M|exact C].
    + assert (H3 : zlen (concat cs) < off) by (unfold bytes in *; lia). split; [exact (past_growable _ _ _ _ _ _ _ _ _ Hs Hfc Hg H3 Hb He E)|].
      destruct (past_chunks _ _ _ _ _ _ _ _ _ Hs Hf Hg H3 Hb He E) as (rcs & zs & F & S & Z1 & Z2). exists rcs. split; [exact F|].
      split; [rewrite <- (solid_concat rcs), S, !concat_app, !solid_concat, Z2, (proj1 (Hs _)), !zlen_app, zlen_repeat by (unfold bytes in *; lia); unfold bytes in *; lia|].
      rewrite S. apply ce_past; rewrite ?solid_concat; [unfold bytes in *; lia|exact Z1|exact Z2].
  - pose proof (truncate_to_spec split size n (concat cs) w Hfc Hl Hp (fun _ => Hg)) as S. rewrite E in S. destruct s as [m1 w1]. destruct S as (F & _ & _ & _ & _ & G). split; [exact (G Hg)|]. destruct F as (r' & F & Er).
    exists r'. split; [exact F|]. assert (Z : zlen (concat r') = size) by (rewrite <- Er; unfold resize; rewrite zlen_ztake by (rewrite pad_len; lia); reflexivity). split; [lia|].
    destruct (Z.lt_trichotomy size (zlen (concat cs))) as [H|[H|H]].
    + destruct (chunk_at cs size ltac:(lia)) as (xs & x & ys & -> & Hx). pose proof (truncate_chunks _ _ _ _ _ _ _ _ _ Hf Hl Hx E) as F2. rewrite (file_dag_fun _ _ _ F F2), !solid_app.
      assert (Ex : solid (x :: ys) = x :: solid ys) by (destruct x; [change (zlen []) with 0 in Hx; lia|reflexivity]). rewrite Ex. replace (size - zlen (concat xs)) with (size - zlen (concat (solid xs))) by now rewrite solid_concat. apply ce_less. rewrite solid_concat. exact Hx.
    + rewrite H in E. assert (n1 = n) as -> by exact (truncate_same _ _ _ _ _ _ Hfc Hl E). rewrite (file_dag_fun _ _ _ F Hf). rewrite H, <- (solid_concat cs). apply ce_same.
    + destruct (grow_chunks _ _ _ _ _ _ _ Hf Hg (conj H (proj2 Hp)) E) as (rcs & zs & F2 & S & Z1 & Z2). rewrite (file_dag_fun _ _ _ F F2), S. apply ce_more; rewrite ?solid_concat; [exact H|exact Z1|exact Z2].
Qed.

(** ** The relation is a function *)

Lemma chunks_edit_fun split e cs c1 c2 : possible e -> chunks_edit split e cs c1 -> chunks_edit split e cs c2 -> c1 = c2.
Proof.
  intros Hp H1 H2. destruct e as [b off|size]; cbn [possible] in Hp.
  - destruct Hp as (Hb & Ho & _). assert (0 < zlen b) by (destruct b as [|x b]; [contradiction|]; rewrite zlen_cons; pose proof (zlen_nonneg b); lia).
    inversion H1; subst; inversion H2; subst; try (unfold bytes in *; lia).
    + apply lens_eq; congruence.
    + f_equal. apply lens_eq; congruence.
    + f_equal. f_equal. apply (FlushProofs.cut_unique 4096); [lia|assumption..|congruence].
  - inversion H1 as [| | |a Ea|a b z L1 L2 L3|a xs x ys L1]; subst; inversion H2 as [| | |a' Ea'|a' b' z' M1 M2 M3|a' xs' x' ys' M1 M2 M3]; subst; try reflexivity; try (exfalso; unfold bytes in *; lia);
      try (exfalso; match goal with _ : context [concat (?a ++ ?b :: ?c)] |- _ => pose proof (chunk_len a b c) end; unfold bytes in *; lia).
    + f_equal. apply (FlushProofs.cut_unique 4096); [lia|assumption..|congruence].
    + match goal with Q : xs' ++ x' :: ys' = xs ++ x :: ys |- _ => destruct (chunk_at_one _ _ _ _ _ _ _ Q M1 L1) as (-> & ->) | Q : xs ++ x :: ys = xs' ++ x' :: ys' |- _ => destruct (chunk_at_one _ _ _ _ _ _ _ Q L1 M1) as (-> & ->) end. reflexivity.
Qed.

(** ** Histories *)

Lemma history split wbsize : forall n es n', chunker_ok split -> edited split wbsize n es n' -> forall cs, file_dag n cs -> zlen (concat cs) < 9223372036854775808 -> growable K n -> Forall possible es ->
  exists rcs, file_dag n' rcs /\ chunks_edits split es (solid cs) (solid rcs).
Proof.
  intros n es n' Hs H. induction H as [n|n e w n1 s es n' E _ IH]; intros cs Hf Hl Hg Hp; [exists cs; split; [exact Hf|constructor]|].
  inversion Hp as [|? ? P1 P2]; subst. destruct (edit_spec _ _ _ _ _ _ _ _ Hs Hf Hl Hg P1 E) as (G1 & c1 & F1 & L1 & C1). destruct (IH _ F1 L1 G1 P2) as (rcs & F & C). exists rcs. split; [exact F|]. econstructor; eassumption.
Qed.
Lemma chunks_edits_fun split : forall es cs c1 c2, Forall possible es -> chunks_edits split es cs c1 -> chunks_edits split es cs c2 -> c1 = c2.
Proof.
  induction es as [|e es IH]; intros cs c1 c2 Hp H1 H2; inversion H1; subst; inversion H2; subst; [reflexivity|]. inversion Hp; subst.
  match goal with A : chunks_edit split e cs ?a, B : chunks_edit split e cs ?b |- _ => assert (a = b) by (eapply chunks_edit_fun; eassumption); subst end. eapply IH; eassumption.
Qed.
Lemma history_chunks : forall split wbsize n cs es n', chunker_ok split -> file_dag n cs -> zlen (concat cs) < 9223372036854775808 -> growable K n -> Forall possible es -> edited split wbsize n es n' ->
  exists rcs, file_dag n' rcs /\ chunks_edits split es (solid cs) (solid rcs).
Proof. intros split wbsize n cs es n' Hs Hf Hl Hg Hp H. eapply history; eassumption. Qed.
Lemma history_same : forall split wb1 wb2 n1 n2 cs1 cs2 es n1' n2' r1 r2, chunker_ok split -> file_dag n1 cs1 -> file_dag n2 cs2 -> solid cs1 = solid cs2 -> zlen (concat cs1) < 9223372036854775808 -> growable K n1 -> growable K n2 -> Forall possible es ->
  edited split wb1 n1 es n1' -> edited split wb2 n2 es n2' -> file_dag n1' r1 -> file_dag n2' r2 -> solid r1 = solid r2.
Proof.
  intros split wb1 wb2 n1 n2 cs1 cs2 es n1' n2' r1 r2 Hs F1 F2 Ec Hl G1 G2 Hp E1 E2 R1 R2.
  assert (L2 : zlen (concat cs2) < 9223372036854775808) by (rewrite <- (solid_concat cs2), <- Ec, solid_concat; exact Hl).
  destruct (history _ _ _ _ _ Hs E1 _ F1 Hl G1 Hp) as (x1 & X1 & C1). destruct (history _ _ _ _ _ Hs E2 _ F2 L2 G2 Hp) as (x2 & X2 & C2). rewrite <- Ec in C2.
  rewrite (file_dag_fun _ _ _ R1 X1), (file_dag_fun _ _ _ R2 X2). eapply chunks_edits_fun; eassumption.
Qed.

(** The bytes under the rules. *)
Lemma chunks_edit_content split e cs cs' : chunker_ok split -> possible e -> chunks_edit split e cs cs' ->
  concat cs' = match e with Put b off => put (concat cs) off b | Cut size => resize (concat cs) size end.
Proof.
  intros Hs Hp H. pose proof (zlen_nonneg (concat cs)) as L0. destruct e as [b off|size]; cbn [possible] in Hp.
  - destruct Hp as (_ & Ho & _). pose proof (zlen_nonneg b). unfold put. inversion H; subst.
    + rewrite pad_small by (unfold bytes in *; lia). assumption.
    + rewrite pad_small, (zdrop_all (off + zlen b)) by (unfold bytes in *; lia). rewrite concat_app, solid_concat, (proj1 (Hs _)), app_nil_r. match goal with Q : concat old = _ |- _ => rewrite Q end. rewrite <- app_assoc. f_equal. apply ztake_zdrop.
    + rewrite <- pad_zeros by (unfold bytes in *; lia). rewrite !concat_app, solid_concat, (proj1 (Hs _)). match goal with Q : concat zs = _ |- _ => rewrite Q end. fold (zeros (off - zlen (concat cs))).
      assert (Lz : zlen (zeros (off - zlen (concat cs))) = off - zlen (concat cs)) by (unfold zeros; rewrite zlen_repeat; unfold bytes in *; lia).
      rewrite ztake_all, zdrop_all, app_nil_r by (rewrite ?zlen_app; unfold bytes in *; lia). now rewrite app_assoc.
  - unfold resize. inversion H; subst.
    + rewrite pad_small, ztake_all by lia. reflexivity.
    + rewrite <- pad_zeros by (unfold bytes in *; lia). rewrite concat_app. match goal with Q : concat zs = _ |- _ => rewrite Q end. fold (zeros (size - zlen (concat cs))).
      assert (Lz : zlen (zeros (size - zlen (concat cs))) = size - zlen (concat cs)) by (unfold zeros; rewrite zlen_repeat; unfold bytes in *; lia).
      rewrite ztake_all by (rewrite zlen_app; unfold bytes in *; lia). reflexivity.
    + pose proof (chunk_len xs x ys). rewrite pad_small by (unfold bytes in *; lia). rewrite !concat_app, solid_concat. cbn [concat]. rewrite app_nil_r. rewrite ztake_app_r by (unfold bytes in *; lia). f_equal. rewrite ztake_app_l by (unfold bytes in *; lia). reflexivity.
Qed.

(** ** Every history can happen *)

Lemma over_ok split wbsize b off n c w : chunker_ok split -> file_content n c -> growable K n -> good_store w n -> 0 <= off <= zlen c -> zlen c < off + zlen b < 9223372036854775808 ->
  exists n1 s1, write_back split wbsize b off n w = (Ok n1, s1).
Proof.
  intros Hs Hf Hg Hgood Ho Hl. unfold write_back. rewrite (WriteAt_in split wbsize n _ b off w Hf Ho ltac:(lia) ltac:(lia)). unfold bind at 1.
  assert (S := Sync_spec split Hs (written n off b) w n c b eq_refl Hf eq_refl ltac:(lia) ltac:(cbn; lia) ltac:(cbn; lia) (fun _ => Hg)).
  destruct (wbsize <? zlen b).
  - destruct (Sync split (written n off b, w)) as [[u|e| |] [m' w']]; try contradiction. destruct S as (n' & -> & _). cbn [ret]. unfold mGetNode, bind. rewrite Sync_none by reflexivity. cbn [fst m_node]. eauto.
  - cbn [ret]. unfold mGetNode, bind. destruct (Sync split (written n off b, w)) as [[u|e| |] [m' w']]; try contradiction. destruct S as (n' & -> & _). cbn [fst m_node]. eauto.
Qed.
Lemma edit_ok split wbsize e n cs w : chunker_ok split -> file_dag n cs -> zlen (concat cs) < 9223372036854775808 -> growable K n -> good_store w n -> possible e -> exists n1 s, edit_node split wbsize e n w = (Ok n1, s).
Proof.
  intros Hs Hf Hl Hg Hgood Hp. assert (Hfc : file_content n (concat cs)) by (exists cs; auto). pose proof (zlen_nonneg (concat cs)) as L0. destruct e as [b off|size]; cbn [edit_node possible] in *.
  - destruct Hp as (Hb & Ho & He). pose proof (zlen_nonneg b) as Lb. destruct (Z_le_gt_dec (off + zlen b) (zlen (concat cs))) as [H|H]; [|destruct (Z_le_gt_dec off (zlen (concat cs))) as [H2|H2]].
    + destruct (overwrite_total split wbsize b off n _ w Hs Hfc Hl Ho H) as [X|(X & _)]; [exact X|contradiction].
    + eapply over_ok; try eassumption; unfold bytes in *; lia.
    + rewrite (proj1 (past_end split wbsize b off n _ w Hfc Hg ltac:(unfold bytes in *; lia) He)). unfold grow_write.
      pose proof (truncate_to_spec split off n (concat cs) w Hfc Hl ltac:(lia) ltac:(intros _; exact Hg)) as TS. destruct (truncate_to split off n w) as [[n0|e| |] [m0 w0]]; try contradiction.
      destruct TS as (F0 & D0 & _ & _ & _ & G0). assert (L1 : zlen (resize (concat cs) off) = off) by (unfold resize; rewrite zlen_ztake by (rewrite pad_len; lia); reflexivity).
      destruct (write_back_ok split wbsize b n0 _ w0 Hs F0 (G0 Hg) (derived_good _ _ _ _ D0 Hgood) ltac:(unfold bytes in *; lia)) as (n' & m' & w' & E). rewrite L1 in E. cbn [snd]. rewrite E. eauto.
  - destruct (truncate_total split size n _ w Hfc Hl Hp (fun _ => Hg)) as [X|(X & _)]; [exact X|contradiction].
Qed.
Lemma history_ok : forall split wbsize es n cs, chunker_ok split -> file_dag n cs -> zlen (concat cs) < 9223372036854775808 -> growable K n -> Forall possible es -> exists n', edited split wbsize n es n'.
Proof.
  intros split wbsize. induction es as [|e es IH]; intros n cs Hs Hf Hl Hg Hp; [exists n; constructor|]. inversion Hp as [|? ? P1 P2]; subst.
  destruct (edit_ok split wbsize e n cs full Hs Hf Hl Hg (full_good n) P1) as (n1 & s & E). destruct (edit_spec _ _ _ _ _ _ _ _ Hs Hf Hl Hg P1 E) as (G1 & c1 & F1 & L1 & _).
  destruct (IH n1 c1 Hs F1 L1 G1 P2) as (n' & H). exists n'. econstructor; eassumption.
Qed.

(** ** A case *)

(** "ab|cd": "xyz" at 1, "xyz" at 3, "xyz" at 9, then 5 bytes, then 7. *)
Definition five_edits : list edit := let b := [Byte.x78; Byte.x79; Byte.x7a] in [Put b 1; Put b 3; Put b 9; Cut 5; Cut 7].
Fixpoint run_edits split wbsize (n : node) (es : list edit) : option node :=
  match es with [] => Some n | e :: r => match edit_node split wbsize e n full with (Ok n1, _) => run_edits split wbsize n1 r | _ => None end end.
Lemma run_edited split wbsize : forall es n n', run_edits split wbsize n es = Some n' -> edited split wbsize n es n'.
Proof.
  induction es as [|e es IH]; intros n n' H; cbn [run_edits] in H; [injection H as ->; constructor|]. destruct (edit_node split wbsize e n full) as [[n1| | |] s] eqn:E; try discriminate. econstructor; [exact E|]. auto.
Qed.
Lemma five_case : forall raw, let n1 := tri raw ab_cd in let n2 := bal raw ab_cd in
  chunker_ok (chop 2) /\ file_dag n1 ab_cd /\ file_dag n2 ab_cd /\ growable K n1 /\ growable K n2 /\ Forall possible five_edits /\
  (exists n', edited (chop 2) 1 n1 five_edits n') /\ exists n', edited (chop 2) 8 n2 five_edits n'.
Proof.
  intros raw n1 n2. split; [apply (fixed_chunker 2); [unfold BlockSizeLimit; lia|apply chop_fixed; lia]|].
  split; [eapply proj1, imported_facts, (proj1 (proj2 (trickle_imports raw)))|]. split; [eapply proj1, imported_facts, (proj1 (proj2 (balanced_imports raw)))|].
  split; [apply root_growable; destruct raw; vm_compute; reflexivity|]. split; [apply root_growable; destruct raw; vm_compute; reflexivity|].
  split; [repeat constructor; cbn; try discriminate; try lia; intros; discriminate|].
  assert (H : forall wb n, match run_edits (chop 2) wb n five_edits with Some _ => true | None => false end = true -> exists n', edited (chop 2) wb n five_edits n').
  { intros wb n H. destruct (run_edits (chop 2) wb n five_edits) as [n'|] eqn:E; [|discriminate]. exists n'. apply run_edited, E. }
  split; apply H; destruct raw; vm_compute; reflexivity.
Qed.
