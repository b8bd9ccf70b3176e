(** The blocks that an overwrite touches. *)
From Verif Require Import Base Pb PbProofs FSNode FSNodeProofs Dag DagProofs Builder Importer Reader Modifier SpecFile SpecAppend SpecReader SpecModifier
  ReaderProofs ReaderRun ReaderProofs2 BuilderProofs ImportProofs AppendProofs GrowProofs ModifierProofs TruncateProofs ModifierRun ModifierFacts SpecLocal LocalRun LocalProofs SpecOverwrite.

(** ** Blocks below a list of links *)

Definition bl (ls : list link) : node := NProto v0prefix [] ls.
Lemma block_links n n' lo hi m : node_links n = node_links n' -> block_at n lo hi m -> block_at n' lo hi m.
Proof. intros E H. destruct H as [n pre l post bs d E' HF Hd|n pre l post bs lo hi m E' HF Hb]; rewrite E in E'; [eapply ba_child|eapply ba_below]; eassumption. Qed.
Lemma block_nonneg n lo hi m : block_at n lo hi m -> 0 <= lo <= hi.
Proof. induction 1 as [n pre l post bs d E HF Hd|n pre l post bs lo hi m E HF Hb IH]; pose proof (zlen_nonneg (concat bs)); [pose proof (zlen_nonneg d)|]; lia. Qed.
Lemma block_bl n lo hi m : block_at n lo hi m -> block_at (bl (node_links n)) lo hi m.
Proof. now apply block_links. Qed.

Lemma block_nil lo hi m : ~ block_at (bl []) lo hi m.
Proof. intros H. inversion H; subst; cbn in *; destruct pre; discriminate. Qed.
Lemma block_cons l ls d lo hi m : tree_bytes (lto l) d -> block_at (bl (l :: ls)) lo hi m ->
  (lo = 0 /\ hi = zlen d /\ m = lto l) \/ block_at (lto l) lo hi m \/ block_at (bl ls) (lo - zlen d) (hi - zlen d) m.
Proof.
  intros Ht H. inversion H as [? pre l' post bs d' E HF Hd|? pre l' post bs lo' hi' ? E HF Hb]; subst; cbn [bl node_links] in E; destruct pre as [|x pre]; injection E as <- E.
  - inversion HF; subst. rewrite (tree_bytes_det _ _ _ Ht Hd). cbn [concat]. change (zlen (@nil byte)) with 0. left. split; [reflexivity|]. split; [lia|reflexivity].
  - cbn [map] in HF. inversion HF as [|? d0 ? bs' F1 F2]; subst. rewrite (tree_bytes_det _ _ _ Ht F1). right. right. cbn [concat]. rewrite zlen_app.
    replace (zlen d0 + zlen (concat bs') - zlen d0) with (zlen (concat bs')) by lia. replace (zlen d0 + zlen (concat bs') + zlen d' - zlen d0) with (zlen (concat bs') + zlen d') by lia.
    eapply ba_child; [cbn; reflexivity|exact F2|exact Hd].
  - inversion HF; subst. cbn [concat]. change (zlen (@nil byte)) with 0. right. left. cbn [Z.add]. exact Hb.
  - cbn [map] in HF. inversion HF as [|? d0 ? bs' F1 F2]; subst. rewrite (tree_bytes_det _ _ _ Ht F1). right. right. cbn [concat]. rewrite zlen_app.
    replace (zlen d0 + zlen (concat bs') + lo' - zlen d0) with (zlen (concat bs') + lo') by lia. replace (zlen d0 + zlen (concat bs') + hi' - zlen d0) with (zlen (concat bs') + hi') by lia.
    eapply ba_below; [cbn; reflexivity|exact F2|exact Hb].
Qed.
Lemma block_head l ls d : tree_bytes (lto l) d -> block_at (bl (l :: ls)) 0 (zlen d) (lto l).
Proof. intros H. apply (ba_child (bl (l :: ls)) [] l ls [] d eq_refl); [constructor|exact H]. Qed.
Lemma block_below l ls lo hi m : block_at (lto l) lo hi m -> block_at (bl (l :: ls)) lo hi m.
Proof. intros H. apply (ba_below (bl (l :: ls)) [] l ls [] lo hi m eq_refl); [constructor|exact H]. Qed.
Lemma block_tail l ls d lo hi m : tree_bytes (lto l) d -> block_at (bl ls) lo hi m -> block_at (bl (l :: ls)) (zlen d + lo) (zlen d + hi) m.
Proof.
  intros Ht H. inversion H as [? pre l' post bs d' E HF Hd|? pre l' post bs lo' hi' ? E HF Hb]; subst; cbn [bl node_links] in E; subst ls.
  - pose proof (ba_child (bl (l :: pre ++ l' :: post)) (l :: pre) l' post (d :: bs) d' eq_refl ltac:(constructor; assumption) Hd) as X. cbn [concat] in X. rewrite zlen_app in X. now rewrite <- Z.add_assoc in X.
  - pose proof (ba_below (bl (l :: pre ++ l' :: post)) (l :: pre) l' post (d :: bs) lo' hi' m eq_refl ltac:(constructor; assumption) Hb) as X. cbn [concat] in X. rewrite zlen_app in X. now rewrite <- !Z.add_assoc in X.
Qed.

(** ** modifyDag *)

Definition grown (w w' : world) (P : node -> Prop) : Prop := exists a, w_added w' = w_added w ++ a /\ forall m o, In (m, o) a -> P m.

Definition local_post (n : node) (off : Z) (buf : bytes) (w : world) (x : res node * bytes * world) : Prop :=
  let '(r, _, w') := x in
  match r with
  | Ok n' =>
      (forall lo hi m, block_at n lo hi m -> overlaps off (zlen buf) lo hi -> dserv_get w' m = Ok m) /\
      (forall lo hi m, block_at n lo hi m -> ~ overlaps off (zlen buf) lo hi -> block_at n' lo hi m) /\
      grown w w' (fun m => m = n' \/ exists lo hi, block_at n' lo hi m /\ overlaps off (zlen buf) lo hi)
  | Err _ => ~ can_add w \/ lacks w n (overlaps off (zlen buf))
  | _ => False
  end.
Definition llocal_post (pre ls : list link) (off : Z) (buf : bytes) (w : world) (x : res unit * list link * bytes * world) : Prop :=
  let '(r, ls', _, w') := x in
  match r with
  | Ok _ => forall ls1, ls' = pre ++ ls1 ->
      (forall lo hi m, block_at (bl ls) lo hi m -> overlaps off (zlen buf) lo hi -> dserv_get w' m = Ok m) /\
      (forall lo hi m, block_at (bl ls) lo hi m -> ~ overlaps off (zlen buf) lo hi -> block_at (bl ls1) lo hi m) /\
      grown w w' (fun m => exists lo hi, block_at (bl ls1) lo hi m /\ overlaps off (zlen buf) lo hi)
  | Err _ => ~ can_add w \/ lacks w (bl ls) (overlaps off (zlen buf))
  | _ => False
  end.

Lemma grown_refl w P : grown w w P.
Proof. exists []. rewrite app_nil_r. split; [reflexivity|]. intros m o []. Qed.
Lemma grown_trans w w1 w2 (P Q R : node -> Prop) : grown w w1 P -> grown w1 w2 Q -> (forall m, P m -> R m) -> (forall m, Q m -> R m) -> grown w w2 R.
Proof.
  intros (a & A1 & A2) (b & B1 & B2) HP HQ. exists (a ++ b). split; [rewrite B1, A1; now rewrite app_assoc|]. intros m o Hi. apply in_app_or in Hi as [Hi|Hi]; [apply HP; eapply A2; eassumption|apply HQ; eapply B2; eassumption].
Qed.
Lemma lacks_grow w w' n P : wgrow w w' -> lacks w' n P -> lacks w n P.
Proof. intros G (lo & hi & m & B & HP & H). exists lo, hi, m. split; [exact B|]. split; [exact HP|]. intros E. apply H. eapply wgrow_get; eassumption. Qed.

Lemma modify_leaf_local n cs off buf w : file_dag n cs -> node_links n = [] -> 0 <= off <= zlen (concat cs) -> local_post n off buf w (modify_leaf n off buf w).
Proof.
  intros Hf Hl Ho. pose proof (modify_leaf_spec n cs off buf w Hf Hl Ho) as S. unfold modify_post in S.
  assert (G : match modify_leaf n off buf w with (Ok n', _, w') => exists m, w_added w' = w_added w ++ [(m, None)] /\ m = n' | (Err _, _, _) => ~ can_add w | _ => True end).
  { assert (A : forall n' b', match add_leaf n' b' w with (Ok n', _, w') => exists m, w_added w' = w_added w ++ [(m, None)] /\ m = n' | (Err _, _, _) => ~ can_add w | _ => True end).
    { intros n' b'. unfold add_leaf. pose proof (add_cases n' w) as A. destruct (dserv_add n' None w) as [[u|e| |] w']; try destruct A as [A1 A2]; eauto. }
    destruct (file_dag_leaf_inv _ _ Hf Hl) as [(p & d & -> & ->)|(p & b & fs & -> & -> & Hd & Ht & Hb & Hsz)]; cbn [modify_leaf concat] in *; rewrite app_nil_r in *.
    - replace (zlen d <? off) with false by lia. destruct (buf_read (zdrop off d) buf) as [new buf']. apply A.
    - rewrite Hd in *. replace (zlen (getData fs) <? off) with false in * by lia. destruct (buf_read_ow (getData fs) off buf Ho) as [E1 E2]. destruct (buf_read (zdrop off (getData fs)) buf) as [new buf']. cbn [fst snd] in *.
      set (data := option_map _ _) in *.
      assert (Ed : obytes data = ow (getData fs) off buf).
      { unfold data, getData in *. destruct (d_data fs); cbn in *; [exact E1|]. rewrite ow_past; [reflexivity|cbn; unfold zlen in *; cbn in *; lia]. }
      assert (Elen : zlen (obytes data) = zlen (getData fs)) by (rewrite Ed; now apply ow_len).
      destruct (leaf_encode b fs data Hd Elen) as (b' & B1 & B2 & B3). { unfold data. destruct (d_data fs); cbn [option_map]; split; intros X; discriminate || reflexivity. }
      rewrite B1. apply A. }
  assert (N : forall lo hi m, ~ block_at n lo hi m) by (intros lo hi m B; apply (block_nil lo hi m); rewrite <- Hl; now apply block_bl).
  destruct (modify_leaf n off buf w) as [[[n'|e| |] buf'] w']; destruct S as [S1 S2]; try contradiction; cbn [local_post]; [|now left].
  destruct G as (m & G1 & ->). split; [intros lo hi m B; elim (N _ _ _ B)|]. split; [intros lo hi m B; elim (N _ _ _ B)|]. exists [(n', None)]. split; [exact G1|]. intros m o [E|[]]. injection E as <- _. now left.
Qed.

Lemma modify_links_local rec :
  forall ls css pre cur off buf w,
  (forall l cs o b w', In l ls -> file_dag (lto l) cs -> 0 <= o <= zlen (concat cs) -> zlen (concat cs) < 9223372036854775808 ->
     modify_post (lto l) cs o b w' (rec (lto l) o b w') /\ local_post (lto l) o b w' (rec (lto l) o b w')) ->
  Forall2 file_dag (map lto ls) css -> Forall unnamed (pre ++ ls) ->
  0 <= cur <= off -> cur + zlen (concat (concat css)) < 9223372036854775808 -> off < 9223372036854775808 ->
  llocal_post pre ls (off - cur) buf w (modify_links rec (map csize css) (length pre) cur off (pre ++ ls) buf w).
Proof.
  induction ls as [|l ls IH]; intros css pre cur off buf w Hrec HF HU Hco Htot Hoff; inversion HF as [|? cs ? css' Hcs HF']; subst; cbn [map modify_links].
  - intros ls1 E. split; [intros lo hi m B; elim (block_nil _ _ _ B)|]. split; [intros lo hi m B; elim (block_nil _ _ _ B)|apply grown_refl].
  - cbn [concat] in Htot. rewrite concat_app, zlen_app in Htot.
    pose proof (zlen_nonneg (concat cs)) as Hc0. pose proof (zlen_nonneg (concat (concat css'))) as Hc1. pose proof (zlen_nonneg buf) as Hbuf.
    assert (Ecs : csize cs = zlen (concat cs)) by (apply mod64_small; lia). rewrite Ecs. rewrite u64_small by (unfold two64; lia).
    assert (Hpre : forall x : link, (pre ++ [x]) ++ ls = pre ++ x :: ls) by (intros x; rewrite <- app_assoc; reflexivity).
    assert (Hplen : forall x : link, length (pre ++ [x]) = S (length pre)) by (intros x; rewrite app_length; cbn; lia).
    pose proof (file_dag_tree _ _ Hcs) as Ht. set (d := concat cs) in *.
    assert (Hrest : forall lo hi m, block_at (bl ls) lo hi m -> 0 <= lo <= hi).
    { intros lo hi m B. eapply block_nonneg, B. }
    assert (Hchild : forall lo hi m, block_at (lto l) lo hi m -> 0 <= lo <= hi /\ hi <= zlen d) by (intros lo hi m B; apply (block_bounds _ _ _ _ B _ Ht)).
    destruct (off <? cur + zlen d) eqn:E.
    + rewrite nth_error_at. pose proof (get_cases w (lto l)) as Gc. destruct (dserv_get w (lto l)) as [c|e| |] eqn:Eg; try contradiction.
      2:{ right. exists 0, (zlen d), (lto l). split; [now apply block_head|]. split; [unfold overlaps; lia|congruence]. }
      subst c. rewrite u64_small by (unfold two64; lia).
      destruct (Hrec l cs (off - cur) buf w (or_introl eq_refl) Hcs ltac:(unfold d in *; lia) ltac:(unfold d in *; lia)) as [P Q].
      destruct (rec (lto l) (off - cur) buf w) as [[[k|e| |] buf'] w']; destruct P as [Pg P]; try contradiction.
      2:{ destruct Q as [Q|(lo & hi & m & B & O & H)]; [now left|]. right. exists lo, hi, m. split; [now apply block_below|]. auto. }
      rewrite set_link_at. destruct P as [(cs' & Pd1 & Pd2) Pb Ps (a & Pa1 & Pa2 & Pa3) Pse]. destruct Q as (Q1 & Q2 & Q3).
      set (l1 := mkLink (lname l) (lsize l) k).
      assert (HU1 : Forall unnamed ((pre ++ [l1]) ++ ls)).
      { rewrite <- app_assoc. cbn [app]. rewrite Forall_app in *. destruct HU as [HU1 HU2]. split; [assumption|]. inversion HU2; subst. constructor; assumption. }
      rewrite lsort_unnamed by (rewrite <- Hpre; exact HU1).
      assert (Ht1 : tree_bytes (lto l1) (concat cs')) by (apply file_dag_tree; exact Pd1).
      assert (Hlen : zlen (concat cs') = zlen d) by (rewrite Pd2; apply ow_len'; lia).
      assert (Lb : zlen buf' = Z.max 0 (zlen buf - (zlen d - (off - cur)))).
      { fold d in Pb. rewrite Pb. unfold zdrop. pose proof (skipn_length (Z.to_nat (zlen d - (off - cur))) buf) as SL. unfold zlen at 1. rewrite SL. clear SL. apply Z.ltb_lt in E. unfold zlen at 2. clear - E. lia. }
      assert (Ov0 : overlaps (off - cur) (zlen buf) 0 (zlen d)) by (unfold overlaps; lia).
      assert (G1 : forall ls1 m, m = k \/ (exists lo hi, block_at k lo hi m /\ overlaps (off - cur) (zlen buf) lo hi) -> exists lo hi, block_at (bl (l1 :: ls1)) lo hi m /\ overlaps (off - cur) (zlen buf) lo hi).
      { intros ls1 m [->|(lo & hi & B & O)]; [exists 0, (zlen d); split; [rewrite <- Hlen; apply (block_head l1); exact Ht1|exact Ov0]|]. exists lo, hi. split; [now apply (block_below l1)|exact O]. }
      destruct (zlen buf' =? 0) eqn:Eb.
      * apply Z.eqb_eq in Eb. intros ls1 E1. apply app_inv_head in E1. subst ls1. split; [|split].
        -- intros lo hi m B O. destruct (block_cons _ _ _ _ _ _ Ht B) as [(-> & -> & ->)|[B'|B']]; [eapply wgrow_get; eassumption|eapply Q1; eassumption|].
           exfalso. apply Hrest in B'. unfold overlaps in O. lia.
        -- intros lo hi m B O. destruct (block_cons _ _ _ _ _ _ Ht B) as [(-> & -> & ->)|[B'|B']]; [contradiction|apply (block_below l1); now apply Q2|].
           replace lo with (zlen (concat cs') + (lo - zlen d)) by lia. replace hi with (zlen (concat cs') + (hi - zlen d)) by lia. now apply (block_tail l1).
        -- destruct Q3 as (b & B1 & B2). exists b. split; [exact B1|]. intros m o Hi. apply G1. eapply B2; eassumption.
      * specialize (IH css' (pre ++ [l1]) (cur + zlen d) (cur + zlen d) buf' w').
        pose proof (modify_links_spec rec ls css' (pre ++ [l1]) (cur + zlen d) (cur + zlen d) buf' w') as SP.
        rewrite Hpre, Hplen, Z.sub_diag in *.
        assert (IH' : llocal_post (pre ++ [l1]) ls 0 buf' w' (modify_links rec (map csize css') (S (length pre)) (cur + zlen d) (cur + zlen d) (pre ++ l1 :: ls) buf' w')).
        { apply IH; auto; try lia. intros; apply Hrec; auto; now right. }
        assert (SP' : mlinks_post (pre ++ [l1]) ls css' 0 buf' w' (modify_links rec (map csize css') (S (length pre)) (cur + zlen d) (cur + zlen d) (pre ++ l1 :: ls) buf' w')).
        { apply SP; auto; try lia. intros; apply Hrec; auto; now right. }
        clear IH SP. destruct (modify_links _ _ _ _ _ _ _ _) as [[[r ls'] buf2] w2]. destruct SP' as [Ig SP'].
        assert (Ov : forall lo hi, 0 <= lo -> (overlaps 0 (zlen buf') lo hi <-> overlaps (off - cur) (zlen buf) (zlen d + lo) (zlen d + hi))) by (intros lo hi ?; unfold overlaps; lia).
        destruct r as [u|e| |]; auto.
        -- destruct SP' as (ls1' & _ & _ & E1' & _). intros ls1 E1. destruct (IH' ls1' E1') as (I1 & I2 & I3). rewrite E1', <- app_assoc in E1. cbn [app] in E1. apply app_inv_head in E1. subst ls1. split; [|split].
           ++ intros lo hi m B O. destruct (block_cons _ _ _ _ _ _ Ht B) as [(-> & -> & ->)|[B'|B']].
              ** eapply wgrow_get; [exact Ig|]. eapply wgrow_get; eassumption.
              ** eapply wgrow_get; [exact Ig|]. eapply Q1; eassumption.
              ** eapply I1; [exact B'|]. pose proof (Hrest _ _ _ B'). apply Ov; [lia|]. replace (zlen d + (lo - zlen d)) with lo by lia. replace (zlen d + (hi - zlen d)) with hi by lia. exact O.
           ++ intros lo hi m B O. destruct (block_cons _ _ _ _ _ _ Ht B) as [(-> & -> & ->)|[B'|B']]; [contradiction|apply (block_below l1); now apply Q2|].
              replace lo with (zlen (concat cs') + (lo - zlen d)) by lia. replace hi with (zlen (concat cs') + (hi - zlen d)) by lia. apply (block_tail l1); [exact Ht1|]. apply I2; [exact B'|].
              pose proof (Hrest _ _ _ B'). rewrite Ov by lia. replace (zlen d + (lo - zlen d)) with lo by lia. replace (zlen d + (hi - zlen d)) with hi by lia. exact O.
           ++ eapply grown_trans; [exact Q3|exact I3|intros m; apply G1|]. cbn beta. intros m (lo & hi & B & O). exists (zlen (concat cs') + lo), (zlen (concat cs') + hi). split; [now apply (block_tail l1)|]. rewrite Hlen. apply Ov; [|exact O]. apply block_nonneg in B. lia.
        -- destruct IH' as [H|H]; [left; intros C; apply H; eapply wgrow_can_add; eassumption|right]. apply (lacks_grow _ _ _ _ Pg) in H. destruct H as (lo & hi & m & B & O & H).
           exists (zlen d + lo), (zlen d + hi), m. split; [now apply block_tail|]. split; [|exact H]. apply Ov; [apply Hrest in B; lia|exact O].
    + specialize (IH css' (pre ++ [l]) (cur + zlen d) off buf w). rewrite Hpre, Hplen in IH.
      pose proof (modify_links_spec rec ls css' (pre ++ [l]) (cur + zlen d) off buf w) as SP. rewrite Hpre, Hplen in SP.
      assert (IH' : llocal_post (pre ++ [l]) ls (off - (cur + zlen d)) buf w (modify_links rec (map csize css') (S (length pre)) (cur + zlen d) off (pre ++ l :: ls) buf w)).
      { apply IH; auto; try lia. intros; apply Hrec; auto; now right. }
      assert (SP' : mlinks_post (pre ++ [l]) ls css' (off - (cur + zlen d)) buf w (modify_links rec (map csize css') (S (length pre)) (cur + zlen d) off (pre ++ l :: ls) buf w)).
      { apply SP; auto; try lia. intros; apply Hrec; auto; now right. }
      clear IH SP. destruct (modify_links _ _ _ _ _ _ _ _) as [[[r ls'] buf2] w2]. destruct SP' as [Ig SP'].
      assert (Ov : forall lo hi, overlaps (off - (cur + zlen d)) (zlen buf) lo hi <-> overlaps (off - cur) (zlen buf) (zlen d + lo) (zlen d + hi)) by (intros lo hi; unfold overlaps; lia).
      destruct r as [u|e| |]; auto.
      * destruct SP' as (ls1' & _ & _ & E1' & _). intros ls1 E1. destruct (IH' ls1' E1') as (I1 & I2 & I3). rewrite E1', <- app_assoc in E1. cbn [app] in E1. apply app_inv_head in E1. subst ls1. split; [|split].
        -- intros lo hi m B O. destruct (block_cons _ _ _ _ _ _ Ht B) as [(-> & -> & ->)|[B'|B']]; [exfalso; unfold overlaps in O; lia|exfalso; apply Hchild in B'; unfold overlaps in O; lia|].
           eapply I1; [exact B'|]. apply Ov. replace (zlen d + (lo - zlen d)) with lo by lia. replace (zlen d + (hi - zlen d)) with hi by lia. exact O.
        -- intros lo hi m B O. destruct (block_cons _ _ _ _ _ _ Ht B) as [(-> & -> & ->)|[B'|B']]; [now apply block_head|now apply block_below|].
           replace lo with (zlen d + (lo - zlen d)) by lia. replace hi with (zlen d + (hi - zlen d)) by lia. apply block_tail; [exact Ht|]. apply I2; [exact B'|].
           rewrite Ov. replace (zlen d + (lo - zlen d)) with lo by lia. replace (zlen d + (hi - zlen d)) with hi by lia. exact O.
        -- destruct I3 as (b & B1 & B2). exists b. split; [exact B1|]. intros m o Hi. destruct (B2 m o Hi) as (lo & hi & B & O). exists (zlen d + lo), (zlen d + hi). split; [now apply block_tail|]. now apply Ov.
      * destruct IH' as [H|(lo & hi & m & B & O & H)]; [now left|right]. exists (zlen d + lo), (zlen d + hi), m. split; [now apply block_tail|]. split; [now apply Ov|exact H].
Qed.

Lemma modifyDag_local fuel : forall n cs off buf w, (height n <= fuel)%nat -> file_dag n cs -> zlen (concat cs) < 9223372036854775808 ->
  0 <= off <= zlen (concat cs) -> local_post n off buf w (fst (modifyDag fuel n off buf w)).
Proof.
  induction fuel as [|fu IH]; intros n cs off buf w Hh Hf Hl Ho.
  - assert (El : node_links n = []) by (destruct n; [reflexivity|cbn in Hh; lia]).
    cbn [modifyDag]. rewrite El. cbn [fst]. eapply modify_leaf_local; eassumption.
  - destruct (node_links n) as [|l0 r0] eqn:El.
    { cbn [modifyDag]. rewrite El. cbn [fst]. eapply modify_leaf_local; eassumption. }
    destruct Hf as [p d|p b fs Hd Ht Hb Hs|p b fs ls css Hls Hu Hd Ht Hda HF Hb Hs]; try discriminate. cbn [node_links] in El.
    cbn [modifyDag node_links]. rewrite El, Hd. rewrite <- El. rewrite Hb.
    pose proof (modify_links_spec (fun c o bf ww => fst (modifyDag fu c o bf ww)) ls css [] 0 off buf w) as S.
    pose proof (modify_links_local (fun c o bf ww => fst (modifyDag fu c o bf ww)) ls css [] 0 off buf w) as L. cbn [length app] in S, L.
    rewrite Z.sub_0_r in S, L.
    assert (S' : mlinks_post [] ls css off buf w (modify_links (fun c o bf ww => fst (modifyDag fu c o bf ww)) (map csize css) 0 0 off ls buf w)).
    { apply S; auto; try lia. intros l cs o bb w' Hin Hcs Hoo Hll. apply modifyDag_spec; auto. pose proof (height_child p b ls l Hin). lia. }
    assert (L' : llocal_post [] ls off buf w (modify_links (fun c o bf ww => fst (modifyDag fu c o bf ww)) (map csize css) 0 0 off ls buf w)).
    { apply L; auto; try lia. intros l cs o bb w' Hin Hcs Hoo Hll. pose proof (height_child p b ls l Hin). split; [apply modifyDag_spec; auto; lia|]. eapply IH; eauto. lia. }
    clear S L. destruct (modify_links _ _ _ _ _ _ _ _) as [[[r ls'] buf'] w'] eqn:Em. destruct S' as [Sg S'].
    destruct r as [u|e| |]; try contradiction; cbn [fst].
    + destruct (L' ls' eq_refl) as (L1 & L2 & L3). destruct S' as (ls1 & css1 & a & E1 & S2 & S3 & S4 & S5 & S6 & S7 & S8). cbn [app] in E1. subst ls'.
      pose proof (link_like_names _ _ S2) as (N1 & N2 & N3).
      assert (HU1 : Forall (fun l => lname l = []) ls1).
      { clear - Hu N1. revert ls1 N1. induction Hu as [|l ls Hl Hu IHu]; intros [|l1 ls1] N1; cbn in N1; try discriminate; constructor; [congruence|]. apply IHu. congruence. }
      assert (Hse : seal (NProto p b ls1) = NProto p b ls1) by (cbn [seal]; rewrite lsort_unnamed by exact HU1; reflexivity).
      pose proof (add_cases (NProto p b ls1) w') as A. destruct (dserv_add (NProto p b ls1) None w') as [[u'|e| |] w2]; try destruct A as [A1 A2]; cbn [fst local_post].
      * rewrite Hse in *. split; [|split].
        -- intros lo hi m B O. eapply wgrow_get; [exact A2|]. eapply L1; [exact (block_links (NProto p b ls) (bl ls) _ _ _ eq_refl B)|exact O].
        -- intros lo hi m B O. apply (block_links (bl ls1)); [reflexivity|]. apply L2; [exact (block_links (NProto p b ls) (bl ls) _ _ _ eq_refl B)|exact O].
        -- eapply (grown_trans _ _ _ _ (fun m => m = NProto p b ls1)); [exact L3|exists [(NProto p b ls1, None)]; split; [exact A1|]; intros m o [E|[]]; injection E as <- _; reflexivity|cbn beta|cbn beta; now left].
           intros m (lo & hi & B & O). right. exists lo, hi. split; [|exact O]. now apply (block_links (bl ls1)).
      * left. intros C. apply A1. eapply wgrow_can_add; eassumption.
      * exact A.
      * exact A.
    + destruct L' as [H|(lo & hi & m & B & O & H)]; [now left|right]. exists lo, hi, m. split; [|auto]. now apply (block_links (bl ls)).
Qed.

(** ** WriteAt and GetNode *)

Definition overwritten (n : node) (off : Z) (b : bytes) (w : world) (n' : node) (w' : world) : Prop :=
  (forall lo hi m, block_at n lo hi m -> overlaps off (zlen b) lo hi -> dserv_get w' m = Ok m) /\
  (forall lo hi m, block_at n lo hi m -> ~ overlaps off (zlen b) lo hi -> block_at n' lo hi m) /\
  grown w w' (fun m => m = n' \/ exists lo hi, block_at n' lo hi m /\ overlaps off (zlen b) lo hi).

Lemma Sync_local split n c off b w : file_content n c -> zlen c < 9223372036854775808 -> 0 <= off -> off + zlen b <= zlen c ->
  match Sync split (written n off b, w) with
  | (Ok _, (m', w')) => exists n', m_node m' = Some n' /\ m_buf m' = None /\ overwritten n off b w n' w'
  | (Err _, _) => ~ (can_add w /\ serves w) \/ lacks w n (overlaps off (zlen b))
  | _ => False
  end.
Proof.
  intros (cs & Hcs & ->) Hl Ho He. pose proof (zlen_nonneg b) as Hb0. pose proof (zlen_nonneg (concat cs)) as Hc0.
  unfold Sync. unfold bind at 1, get_mod at 1. cbn [fst written m_buf]. unfold bind at 1, upd_mod at 1. cbn [fst snd].
  unfold bind at 1, cur_node at 1. cbn [fst snd m_set_read m_node written]. unfold bind at 1, lift at 1. rewrite (fileSize_dag n cs Hcs Hl). cbn [written m_start].
  replace (zlen (concat cs) <? off) with false by lia. unfold bind at 1. cbn [ret]. unfold bind at 1, modify_cur at 1. cbn [fst snd m_set_read written m_node m_buf m_start].
  assert (Hh : (height n <= weight n)%nat) by apply height_weight.
  pose proof (modifyDag_spec (weight n) n cs off b w Hh Hcs Hl ltac:(lia)) as S. pose proof (modifyDag_local (weight n) n cs off b w Hh Hcs Hl ltac:(lia)) as L.
  destruct (modifyDag (weight n) n off b w) as [[[r buf'] w'] n1]. cbn [fst] in S, L. destruct S as [Sg S]. destruct r as [k|e| |]; try contradiction.
  2:{ destruct L as [L|L]; [left; intros [C _]; contradiction|now right]. }
  destruct S as [_ Sb _ (a & Sa1 & Sa2 & _) _]. unfold bind at 1, get_cur at 1. cbn [fst snd].
  assert (Hst : stored w' k = true) by (apply stored_added; rewrite Sa1, map_app; apply in_or_app; now right).
  pose proof (get_cases w' k) as G. destruct (dserv_get w' k) as [k'|e| |] eqn:Eg; try contradiction.
  2:{ left. intros [_ C]. apply G. split; [exact Hst|]. eapply wgrow_serves; eassumption. }
  subst k'. unfold bind at 1, get_mod at 1. cbn [fst snd m_set_node m_set_buf m_buf].
  assert (Eb : buf' = []) by (rewrite Sb; apply zdrop_all; lia). rewrite Eb. unfold bind at 1. cbn [ret]. unfold upd_mod. cbn [fst snd].
  exists k. split; [reflexivity|]. split; [reflexivity|]. exact L.
Qed.

Lemma write_back_local split wbsize b off n c w : file_content n c -> zlen c < 9223372036854775808 -> 0 <= off -> off + zlen b <= zlen c ->
  match write_back split wbsize b off n w with
  | (Ok n', (_, w')) => overwritten n off b w n' w'
  | (Err _, _) => ~ (can_add w /\ serves w) \/ lacks w n (overlaps off (zlen b))
  | _ => False
  end.
Proof.
  intros Hf Hl Ho He. unfold write_back. rewrite (WriteAt_fresh split wbsize n c b off w Hf Hl Ho He).
  pose proof (Sync_local split n c off b w Hf Hl Ho He) as S. unfold bind at 1. destruct (wbsize <? zlen b).
  - destruct (Sync split (written n off b, w)) as [[u|e| |] [m' w']]; try contradiction; [|exact S].
    destruct S as (n' & F1 & F2 & F3). cbn [ret]. unfold mGetNode, bind. rewrite Sync_none by exact F2. cbn [fst]. rewrite F1. exact F3.
  - cbn [ret]. unfold mGetNode, bind. destruct (Sync split (written n off b, w)) as [[u|e| |] [m' w']]; try contradiction; [|exact S].
    destruct S as (n' & F1 & F2 & F3). cbn [fst]. rewrite F1. exact F3.
Qed.
