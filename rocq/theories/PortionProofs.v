(** Data appended in portions, and the number of chunks. *)
From Verif Require Import Base Pb PbProofs FSNode FSNodeProofs Dag DagProofs Builder Balanced Trickle Importer Reader Modifier
  SpecFile SpecAppend SpecModifier BuilderProofs BalancedProofs ImportProofs AppendProofs AppendRun SpecShare ShareProofs ReaderWitness ModifierRun ModifierProofs TruncateProofs ModifierFacts ShortenProofs TraceProofs RewriteProofs DetProofs LeakProofs SpecHole HoleProofs SpecPieces PiecesProofs FlushProofs OnwardProofs ChunksProofs OverEndProofs SpecEvolve EvolveProofs.

Lemma at_end_possible : forall bs off, 0 <= off -> Forall (fun b => b <> []) bs -> off + zlen (concat bs) < 9223372036854775808 -> Forall possible (at_end off bs).
Proof.
  induction bs as [|b bs IH]; intros off Ho Hb Hl; cbn [at_end]; [constructor|]. inversion Hb as [|? ? B1 B2]; subst. cbn [concat] in Hl. rewrite zlen_app in Hl. pose proof (zlen_nonneg b). pose proof (zlen_nonneg (concat bs)).
  constructor; [cbn [possible]; split; [exact B1|]; unfold bytes in *; lia|]. apply IH; [lia|exact B2|unfold bytes in *; lia].
Qed.
(** Under the rules. *)
Lemma at_end_rules split : chunker_ok split -> forall bs cs cs', Forall (fun b => b <> []) bs -> chunks_edits split (at_end (zlen (concat cs)) bs) cs cs' -> cs' = cs ++ concat (map (fun b => solid (split b)) bs).
Proof.
  intros Hs. induction bs as [|b bs IH]; intros cs cs' Hb H; cbn [at_end] in H; inversion H as [|? ? ? c1 ? H1 H2]; subst; cbn [map concat]; [now rewrite app_nil_r|]. inversion Hb as [|? ? B1 B2]; subst.
  assert (Lb : 0 < zlen b) by (destruct b as [|x b]; [contradiction|]; rewrite zlen_cons; pose proof (zlen_nonneg b); lia).
  assert (c1 = cs ++ solid (split b)) as ->.
  { inversion H1 as [| ? ? ? old L M C| | | |]; subst; try (exfalso; unfold bytes in *; lia).
    rewrite Z.sub_diag, ztake_all, (ModifierProofs.ztake_neg 0), app_nil_r in * by lia. rewrite (lens_eq old cs M C). reflexivity. }
  assert (L1 : zlen (concat (cs ++ solid (split b))) = zlen (concat cs) + zlen b) by (rewrite concat_app, zlen_app, solid_concat, (proj1 (Hs b)); reflexivity).
  rewrite <- L1 in H2. rewrite (IH _ _ B2 H2), app_assoc. reflexivity.
Qed.
Lemma portions_chunks : forall split wbsize n cs bs n', chunker_ok split -> file_dag n cs -> growable K n -> Forall (fun b => b <> []) bs -> zlen (concat cs) + zlen (concat bs) < 9223372036854775808 ->
  edited split wbsize n (at_end (zlen (concat cs)) bs) n' -> exists rcs, file_dag n' rcs /\ solid rcs = solid cs ++ concat (map (fun b => solid (split b)) bs).
Proof.
  intros split wb n cs bs n' Hs Hf Hg Hb Hl E. pose proof (zlen_nonneg (concat cs)). pose proof (zlen_nonneg (concat bs)).
  destruct (history_chunks split wb n cs _ n' Hs Hf ltac:(unfold bytes in *; lia) Hg (at_end_possible bs (zlen (concat cs)) ltac:(unfold bytes in *; lia) Hb Hl) E) as (rcs & F & C). exists rcs. split; [exact F|].
  apply (at_end_rules split Hs bs); [exact Hb|]. now rewrite solid_concat.
Qed.
(** Each portion takes at least one chunk of its own. *)
Lemma portions_many : forall split wbsize n cs bs n' rcs, chunker_ok split -> file_dag n cs -> growable K n -> Forall (fun b => b <> []) bs -> zlen (concat cs) + zlen (concat bs) < 9223372036854775808 ->
  edited split wbsize n (at_end (zlen (concat cs)) bs) n' -> file_dag n' rcs -> zlen (solid cs) + zlen bs <= zlen (solid rcs).
Proof.
  intros split wb n cs bs n' rcs Hs Hf Hg Hb Hl E R. destruct (portions_chunks _ _ _ _ _ _ Hs Hf Hg Hb Hl E) as (r & F & C). rewrite (file_dag_fun _ _ _ R F), C, zlen_app. apply Z.add_le_mono_l. clear - Hb Hs.
  induction Hb as [|b bs B _ IH]; cbn [map concat]; [reflexivity|]. rewrite zlen_cons, zlen_app. assert (1 <= zlen (solid (split b))); [|unfold bytes in *; lia].
  pose proof (zlen_nonneg (solid (split b))). destruct (solid (split b)) as [|y l] eqn:Ey; [|rewrite zlen_cons; pose proof (zlen_nonneg l); unfold bytes in *; lia].
  exfalso. apply B. rewrite <- (proj1 (Hs b)), <- solid_concat, Ey. reflexivity.
Qed.
(** With a fixed size, portions that are not larger become the chunks; in one go there are as few as the size allows. *)
Lemma small_one s split b : 0 < s -> fixed_size s split -> 0 < zlen b <= s -> split b = [b].
Proof.
  intros Hs H Hb. destruct (H b) as (E & C). apply (FlushProofs.cut_unique s Hs); [exact C| |now rewrite E; cbn [concat]; rewrite app_nil_r].
  destruct (Z.eq_dec (zlen b) s) as [L|L]; [exists [b], []|exists [], [b]]; (split; [reflexivity|]); split; auto. right. exists b. split; [reflexivity|lia].
Qed.
Lemma small_portions : forall s split wbsize n cs bs n', 0 < s <= BlockSizeLimit -> fixed_size s split -> file_dag n cs -> growable K n -> Forall (fun b => 0 < zlen b <= s) bs -> zlen (concat cs) + zlen (concat bs) < 9223372036854775808 ->
  edited split wbsize n (at_end (zlen (concat cs)) bs) n' -> exists rcs, file_dag n' rcs /\ solid rcs = solid cs ++ bs.
Proof.
  intros s split wb n cs bs n' Hs Hx Hf Hg Hb Hl E. assert (Hne : Forall (fun b : bytes => b <> []) bs) by (eapply Forall_impl; [|exact Hb]; intros a L ->; cbn beta in L; change (zlen []) with 0 in L; lia).
  destruct (portions_chunks _ _ _ _ _ _ (fixed_chunker s split Hs Hx) Hf Hg Hne Hl E) as (r & F & C). exists r. split; [exact F|]. rewrite C. f_equal. clear - Hb Hs Hx.
  induction Hb as [|b bs B _ IH]; cbn [map concat]; [reflexivity|]. rewrite (small_one s split b (proj1 Hs) Hx B), IH. destruct b; [change (zlen []) with 0 in B; lia|reflexivity].
Qed.
Lemma at_once_few : forall s split wbsize n cs b n' rcs, 0 < s <= BlockSizeLimit -> fixed_size s split -> file_dag n cs -> growable K n -> b <> [] -> zlen (concat cs) + zlen b < 9223372036854775808 ->
  edited split wbsize n (at_end (zlen (concat cs)) [b]) n' -> file_dag n' rcs -> s * (zlen (solid rcs) - zlen (solid cs)) <= zlen b + s.
Proof.
  intros s split wb n cs b n' rcs Hs Hx Hf Hg Hb Hl E R. destruct (portions_chunks split wb n cs [b] n' (fixed_chunker s split Hs Hx) Hf Hg ltac:(constructor; [exact Hb|constructor]) ltac:(cbn [concat]; rewrite app_nil_r; exact Hl) E) as (r & F & C).
  rewrite (file_dag_fun _ _ _ R F), C, zlen_app. cbn [map concat]. rewrite app_nil_r. destruct (Hx b) as (Eb & Cb). rewrite (cut_solid s _ (proj1 Hs) Cb). pose proof (cut_count s _ (proj1 Hs) Cb) as X. rewrite Eb in X. replace (zlen (solid cs) + zlen (split b) - zlen (solid cs)) with (zlen (split b)) by lia. exact X.
Qed.

(** ** The finding *)

Lemma many_chunks : forall s split wbsize k n, 0 < s <= BlockSizeLimit -> fixed_size s split -> made [] n -> 1 <= k <= s -> exists bs n1 n2 r1 r2, concat bs = repeat Byte.x61 (Z.to_nat k) /\
  edited split wbsize n (at_end 0 bs) n1 /\ edited split wbsize n (at_end 0 [concat bs]) n2 /\ file_dag n1 r1 /\ file_dag n2 r2 /\ concat r1 = concat r2 /\ zlen (solid r1) = k /\ zlen (solid r2) = 1.
Proof.
  intros s split wb k n Hs Hx Hm Hk. pose proof (made_content _ _ Hm) as Hfc. cbn [concat] in Hfc. destruct Hfc as (cs & Hf & Ec). pose proof (made_growable _ _ Hm) as Hg. pose proof (fixed_chunker s split Hs Hx) as Hc.
  assert (Sc : solid cs = []).
  { destruct (solid cs) as [|c r] eqn:E; [reflexivity|]. exfalso. assert (H : In c (solid cs)) by (rewrite E; now left). apply filter_In in H as (_ & H). pose proof (solid_concat cs) as X. rewrite E, <- Ec in X. cbn [concat] in X. apply app_eq_nil in X as (-> & _). discriminate. }
  set (bs := repeat [Byte.x61] (Z.to_nat k)). assert (Eb : concat bs = repeat Byte.x61 (Z.to_nat k)) by (subst bs; induction (Z.to_nat k) as [|j IH]; cbn [repeat concat app]; [reflexivity|now rewrite IH]).
  assert (Lb : zlen (concat bs) = k) by (rewrite Eb, zlen_repeat; lia). assert (Lk : zlen bs = k) by (subst bs; rewrite zlen_repeat; lia).
  assert (B1 : Forall (fun b : bytes => 0 < zlen b <= s) bs) by (apply Forall_forall; intros x H; apply repeat_spec in H; subst x; change (zlen [Byte.x61]) with 1; lia).
  assert (B1' : Forall (fun b : bytes => b <> []) bs) by (eapply Forall_impl; [|exact B1]; intros a L ->; cbn beta in L; change (zlen []) with 0 in L; lia).
  assert (B2 : Forall (fun b : bytes => 0 < zlen b <= s) [concat bs]) by (constructor; [lia|constructor]).
  assert (B2' : Forall (fun b : bytes => b <> []) [concat bs]) by (eapply Forall_impl; [|exact B2]; intros a L ->; cbn beta in L; change (zlen []) with 0 in L; lia).
  assert (Zc : zlen (concat cs) = 0) by (rewrite <- Ec; reflexivity). assert (BL : BlockSizeLimit < 9223372036854775808) by (unfold BlockSizeLimit; lia).
  assert (L2 : zlen (concat [concat bs]) = k) by (cbn [concat]; rewrite app_nil_r; exact Lb).
  destruct (history_ok split wb (at_end 0 bs) n cs Hc Hf ltac:(unfold bytes in *; lia) Hg (at_end_possible bs 0 ltac:(unfold bytes in *; lia) B1' ltac:(unfold bytes in *; lia))) as (n1 & E1).
  destruct (history_ok split wb (at_end 0 [concat bs]) n cs Hc Hf ltac:(unfold bytes in *; lia) Hg (at_end_possible [concat bs] 0 ltac:(unfold bytes in *; lia) B2' ltac:(unfold bytes in *; lia))) as (n2 & E2).
  assert (E1' : edited split wb n (at_end (zlen (concat cs)) bs) n1) by (rewrite Zc; exact E1). assert (E2' : edited split wb n (at_end (zlen (concat cs)) [concat bs]) n2) by (rewrite Zc; exact E2).
  destruct (small_portions s split wb n cs bs n1 Hs Hx Hf Hg B1 ltac:(unfold bytes in *; lia) E1') as (r1 & F1 & C1). destruct (small_portions s split wb n cs [concat bs] n2 Hs Hx Hf Hg B2 ltac:(unfold bytes in *; lia) E2') as (r2 & F2 & C2).
  rewrite Sc in C1, C2. cbn [app] in C1, C2. exists bs, n1, n2, r1, r2. do 5 (split; [assumption|]). split; [|split; [now rewrite C1|rewrite C2; reflexivity]].
  rewrite <- (solid_concat r1), <- (solid_concat r2), C1, C2. cbn [concat]. now rewrite app_nil_r.
Qed.
Lemma chunks_by_size_refuted : exists split n bs n1 n2 r1 r2, fixed_size 262144 split /\ made [] n /\
  edited split 2097152 n (at_end 0 bs) n1 /\ edited split 2097152 n (at_end 0 [concat bs]) n2 /\ file_dag n1 r1 /\ file_dag n2 r2 /\ concat r1 = concat r2 /\ zlen (solid r1) = 100000 /\ zlen (solid r2) = 1.
Proof.
  pose proof (chop_fixed 262144 ltac:(unfold bytes in *; lia)) as Hx. pose proof (empty_made (mkPrefix 1 112 18 32) ltac:(cbn; auto)) as Hm.
  destruct (many_chunks 262144 (chop 262144) 2097152 100000 _ ltac:(unfold BlockSizeLimit; lia) Hx Hm ltac:(unfold bytes in *; lia)) as (bs & n1 & n2 & r1 & r2 & _ & H). exists (chop 262144), (empty_of (mkPrefix 1 112 18 32)), bs, n1, n2, r1, r2. tauto.
Qed.
Lemma portions_case : forall raw t, let n := (if t : bool then tri raw else bal raw) ab_cd in let bs := [[Byte.x78]; [Byte.x79; Byte.x7a]; [Byte.x78]] in
  fixed_size 2 (chop 2) /\ file_dag n ab_cd /\ growable K n /\ Forall (fun b => 0 < zlen b <= 2) bs /\ Forall (fun b => b <> []) bs /\
  (exists n', edited (chop 2) 8 n (at_end (zlen (concat ab_cd)) bs) n') /\ exists n', edited (chop 2) 8 n (at_end (zlen (concat ab_cd)) [concat bs]) n'.
Proof.
  intros raw t n bs. assert (I1 : imported t (two_links raw) ab_cd n) by (destruct t; subst n; [apply trickle_imports|apply balanced_imports]). pose proof (chop_fixed 2 ltac:(lia)) as Hx.
  assert (Hf : file_dag n ab_cd) by (eapply proj1, imported_facts, I1). assert (Hg : growable K n) by (apply root_growable; destruct t, raw; vm_compute; reflexivity).
  split; [exact Hx|]. split; [exact Hf|]. split; [exact Hg|]. split; [do 3 (constructor; [vm_compute; split; [reflexivity|discriminate]|]); constructor|]. split; [do 3 (constructor; [discriminate|]); constructor|].
  pose proof (fixed_chunker 2 _ ltac:(unfold BlockSizeLimit; lia) Hx) as Hc.
  split; apply (history_ok (chop 2) 8 _ n ab_cd Hc Hf eq_refl Hg); (apply at_end_possible; [vm_compute; discriminate| |reflexivity]); [do 3 (constructor; [discriminate|]); constructor|constructor; [discriminate|constructor]].
Qed.
