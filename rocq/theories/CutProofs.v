(** The blocks that Truncate looks at and keeps. *)
From Verif Require Import Base Pb PbProofs FSNode FSNodeProofs Dag DagProofs Builder Importer Reader Modifier SpecFile SpecAppend SpecReader SpecModifier
  ReaderProofs ReaderRun ReaderProofs2 BuilderProofs ImportProofs AppendProofs GrowProofs ModifierProofs TruncateProofs ModifierRun ModifierFacts SpecLocal LocalRun LocalProofs SpecOverwrite OverwriteProofs.

Lemma cut_links n n' s m : node_links n = node_links n' -> cut_needs n s m -> cut_needs n' s m.
Proof. intros E H. destruct H as [n s pre l post bs E' HF Hs|n s pre l post bs d m E' HF Ht Hs Hb]; rewrite E in E'; [eapply cn_child|eapply cn_below]; eassumption. Qed.
Lemma cut_nil s m : ~ cut_needs (bl []) s m.
Proof. intros H. inversion H; subst; cbn in *; destruct pre; discriminate. Qed.
Lemma cut_cons l ls d s m : tree_bytes (lto l) d -> cut_needs (bl (l :: ls)) s m ->
  m = lto l \/ (s < zlen d /\ cut_needs (lto l) s m) \/ (zlen d <= s /\ cut_needs (bl ls) (s - zlen d) m).
Proof.
  intros Ht H. inversion H as [? ? pre l' post bs E HF Hs|? ? pre l' post bs d' ? E HF Hd Hs Hb]; subst; cbn [bl node_links] in E; destruct pre as [|x pre]; injection E as <- E.
  - now left.
  - cbn [map] in HF. inversion HF as [|? d0 ? bs' F1 F2]; subst. rewrite (tree_bytes_det _ _ _ Ht F1). cbn [concat] in Hs. rewrite zlen_app in Hs. pose proof (zlen_nonneg (concat bs')). right. right. split; [lia|].
    eapply cn_child; [cbn; reflexivity|exact F2|lia].
  - inversion HF; subst. cbn [concat] in *. change (zlen (@nil byte)) with 0 in *. rewrite (tree_bytes_det _ _ _ Ht Hd). right. left. rewrite Z.sub_0_r in Hb. split; [lia|exact Hb].
  - cbn [map] in HF. inversion HF as [|? d0 ? bs' F1 F2]; subst. rewrite (tree_bytes_det _ _ _ Ht F1). cbn [concat] in Hs, Hb. rewrite zlen_app in Hs, Hb. pose proof (zlen_nonneg (concat bs')). right. right. split; [lia|].
    eapply cn_below; [cbn; reflexivity|exact F2|exact Hd|lia|]. now replace (s - zlen d0 - zlen (concat bs')) with (s - (zlen d0 + zlen (concat bs'))) by lia.
Qed.
Lemma cut_head l ls s : 0 <= s -> cut_needs (bl (l :: ls)) s (lto l).
Proof. intros H. apply (cn_child (bl (l :: ls)) s [] l ls []); [reflexivity|constructor|exact H]. Qed.
Lemma cut_below l ls d s m : tree_bytes (lto l) d -> 0 <= s < zlen d -> cut_needs (lto l) s m -> cut_needs (bl (l :: ls)) s m.
Proof. intros Ht Hs H. apply (cn_below (bl (l :: ls)) s [] l ls [] d); [reflexivity|constructor|exact Ht|exact Hs|]. cbn [concat]. change (zlen (@nil byte)) with 0. now rewrite Z.sub_0_r. Qed.
Lemma cut_tail l ls d s m : tree_bytes (lto l) d -> cut_needs (bl ls) (s - zlen d) m -> cut_needs (bl (l :: ls)) s m.
Proof.
  intros Ht H. inversion H as [? ? pre l' post bs E HF Hs|? ? pre l' post bs d' ? E HF Hd Hs Hb]; subst; cbn [bl node_links] in E; subst ls.
  - apply (cn_child (bl (l :: pre ++ l' :: post)) s (l :: pre) l' post (d :: bs)); [reflexivity|constructor; assumption|]. cbn [concat]. rewrite zlen_app. lia.
  - apply (cn_below (bl (l :: pre ++ l' :: post)) s (l :: pre) l' post (d :: bs) d'); [reflexivity|constructor; assumption|exact Hd| |]; cbn [concat]; rewrite zlen_app; [lia|].
    now replace (s - (zlen d + zlen (concat bs))) with (s - zlen d - zlen (concat bs)) by lia.
Qed.

Definition cut_post (n : node) (s : Z) (w : world) (x : res node * world) : Prop :=
  match fst x with
  | Ok n' =>
      (forall m, cut_needs n s m -> dserv_get w m = Ok m) /\
      (forall lo hi m, block_at n lo hi m -> hi <= s -> block_at n' lo hi m) /\
      grown w (snd x) (fun m => exists lo, block_at n' lo s m)
  | Err _ => ~ can_add w \/ exists m, cut_needs n s m /\ dserv_get w m <> Ok m
  | _ => False
  end.
Definition lcut_post (ls : list link) (i : nat) (s : Z) (w : world) (x : res (option (nat * node) * FSNode) * world) : Prop :=
  match fst x with
  | Ok (Some (e, nc), _) => exists j, e = (i + j)%nat /\ (j < length ls)%nat /\
      (forall m, cut_needs (bl ls) s m -> dserv_get w m = Ok m) /\
      (forall lnk, lto lnk = nc ->
        (forall lo hi m, block_at (bl ls) lo hi m -> hi <= s -> block_at (bl (firstn j ls ++ [lnk])) lo hi m) /\
        (exists lo, block_at (bl (firstn j ls ++ [lnk])) lo s nc) /\
        grown w (snd x) (fun m => exists lo, block_at (bl (firstn j ls ++ [lnk])) lo s m))
  | Ok (None, _) => False
  | Err _ => ~ can_add w \/ exists m, cut_needs (bl ls) s m /\ dserv_get w m <> Ok m
  | _ => False
  end.

Lemma trunc_leaf_local fuel n cs s w : file_dag n cs -> node_links n = [] -> 0 <= s < zlen (concat cs) -> zlen (concat cs) < 9223372036854775808 ->
  cut_post n s w (dagTruncate fuel n s w).
Proof.
  intros Hf Hl Hs Hlen. pose proof (truncate_leaf fuel n cs s w Hf Hl Hs Hlen) as [_ S].
  assert (W : snd (dagTruncate fuel n s w) = w /\ match fst (dagTruncate fuel n s w) with Err _ => False | _ => True end).
  { destruct fuel; cbn [dagTruncate]; rewrite Hl.
    all: destruct (file_dag_leaf_inv _ _ Hf Hl) as [(p & d & -> & ->)|(p & b & fs & -> & -> & Hd & Ht & Hb & Hsz)]; cbn [concat] in *; rewrite app_nil_r in *.
    1,3: replace (zlen d <? s) with false by lia; split; [reflexivity|exact I].
    all: rewrite Hd; replace (zlen (getData fs) <? s) with false by lia;
      assert (Ed : obytes (option_map (ztake s) (d_data fs)) = ztake s (getData fs)) by (unfold getData; destruct (d_data fs); cbn; [reflexivity|now rewrite ztake_nil]);
      destruct (WrapData_decode (option_map (ztake s) (d_data fs))) as (b' & -> & Hb'); [unfold bytes in *; rewrite Ed, zlen_ztake by lia; unfold two64; lia|]; split; [reflexivity|exact I]. }
  destruct W as [W1 W2]. unfold cut_post. destruct (fst (dagTruncate fuel n s w)) as [n'|e| |]; try contradiction. rewrite W1.
  split; [|split; [|apply grown_refl]].
  - intros m H. elim (cut_nil s m). rewrite <- Hl. now apply (cut_links n).
  - intros lo hi m B. elim (block_nil lo hi m). rewrite <- Hl. now apply block_bl.
Qed.

Lemma trunc_links_local rec :
  forall ls css i cur size f0 css0 w,
  (forall l cs s w', In l ls -> file_dag (lto l) cs -> 0 <= s < zlen (concat cs) -> zlen (concat cs) < 9223372036854775808 ->
     truncate_post (lto l) cs s w' (rec (lto l) s w') /\ cut_post (lto l) s w' (rec (lto l) s w')) ->
  Forall2 file_dag (map lto ls) css ->
  0 <= cur <= size -> size < cur + zlen (concat (concat css)) < 9223372036854775808 ->
  lcut_post ls i (size - cur) w (trunc_links rec ls i cur size (resized f0 css0) w).
Proof.
  induction ls as [|l ls IH]; intros css i cur size f0 css0 w Hrec HF Hc Htot; inversion HF as [|? cs ? css' Hcs HF']; subst; cbn [trunc_links].
  - cbn in Htot. change (zlen (@nil byte)) with 0 in Htot. lia.
  - cbn [concat] in Htot. rewrite concat_app, zlen_app in Htot.
    pose proof (zlen_nonneg (concat cs)) as Hc0. pose proof (zlen_nonneg (concat (concat css'))) as Hc1.
    pose proof (file_dag_tree _ _ Hcs) as Ht.
    pose proof (get_cases w (lto l)) as Gc. destruct (dserv_get w (lto l)) as [c|e| |] eqn:Eg; try contradiction.
    2:{ right. exists (lto l). split; [apply cut_head; lia|congruence]. }
    subst c. rewrite (fileSize_dag _ _ Hcs) by lia. rewrite (u64_small (cur + _)) by (unfold two64; lia).
    destruct (size <? cur + zlen (concat cs)) eqn:E.
    + rewrite u64_small by (unfold two64; lia).
      destruct (Hrec l cs (size - cur) w (or_introl eq_refl) Hcs ltac:(lia) ltac:(lia)) as [[_ P] Q].
      destruct (rec (lto l) (size - cur) w) as [[nc|e| |] w']; unfold cut_post in Q; cbn [fst snd] in *; try contradiction.
      * destruct (tr_dag _ _ _ _ _ _ P) as (csn & D1 & D2). destruct Q as (Q1 & Q2 & Q3). exists O. split; [lia|]. split; [cbn; lia|]. split.
        -- intros m H. destruct (cut_cons _ _ _ _ _ Ht H) as [->|[[_ H']|[H' _]]]; [exact Eg|now apply Q1|lia].
        -- intros lnk El. cbn [firstn app snd]. split; [|split].
           ++ intros lo hi m B Hh. destruct (block_cons _ _ _ _ _ _ Ht B) as [(-> & -> & ->)|[B'|B']]; [lia| |apply block_nonneg in B'; lia]. apply block_below. rewrite El. now apply Q2.
           ++ exists 0. pose proof (block_head lnk [] (concat csn)) as X. rewrite El, D2, zlen_ztake in X by lia. apply X. rewrite <- D2. now apply file_dag_tree.
           ++ destruct Q3 as (a & A1 & A2). exists a. split; [exact A1|]. intros m o Hi. destruct (A2 m o Hi) as (lo & B). exists lo. apply block_below. now rewrite El.
      * destruct Q as [Q|(m & Q1 & Q2)]; [now left|right]. exists m. split; [|exact Q2]. eapply cut_below; [exact Ht|lia|exact Q1].
    + rewrite (resized_add f0 css0 cs) by (auto; lia).
      assert (IH' : lcut_post ls (S i) (size - (cur + zlen (concat cs))) w (trunc_links rec ls (S i) (cur + zlen (concat cs)) size (resized f0 (css0 ++ [cs])) w)).
      { apply (IH css'); auto; try lia. intros; apply Hrec; auto; now right. }
      clear IH. destruct (trunc_links _ _ _ _ _ _ _) as [r w']. unfold lcut_post in *. cbn [fst snd] in *. replace (size - (cur + zlen (concat cs))) with (size - cur - zlen (concat cs)) in IH' by lia. set (s := size - cur) in *.
      destruct r as [[[[e nc]|] f']|e| |]; auto.
      * destruct IH' as (j & I1 & I2 & I3 & I4). exists (S j). split; [lia|]. split; [cbn; lia|]. split.
        -- intros m H. destruct (cut_cons _ _ _ _ _ Ht H) as [->|[[H' _]|[_ H']]]; [exact Eg|lia|now apply I3].
        -- intros lnk El. destruct (I4 lnk El) as (J1 & (lo0 & J2) & (a & A1 & A2)). cbn [firstn app].
           assert (Sh : forall lo m, block_at (bl (firstn j ls ++ [lnk])) lo (s - zlen (concat cs)) m -> block_at (bl (l :: firstn j ls ++ [lnk])) (zlen (concat cs) + lo) s m).
           { intros lo m B. pose proof (block_tail l _ _ _ _ _ Ht B) as X. now replace (zlen (concat cs) + (s - zlen (concat cs))) with s in X by lia. }
           split; [|split].
           ++ intros lo hi m B Hh. destruct (block_cons _ _ _ _ _ _ Ht B) as [(-> & -> & ->)|[B'|B']]; [now apply block_head|now apply block_below|].
              replace lo with (zlen (concat cs) + (lo - zlen (concat cs))) by lia. replace hi with (zlen (concat cs) + (hi - zlen (concat cs))) by lia. apply block_tail; [exact Ht|]. apply J1; [exact B'|lia].
           ++ eexists. apply Sh. exact J2.
           ++ exists a. split; [exact A1|]. intros m o Hi. destruct (A2 m o Hi) as (lo & B). eexists. apply Sh. exact B.
      * destruct IH' as [H|(m & H1 & H2)]; [now left|right]. exists m. split; [|exact H2]. eapply cut_tail; eassumption.
Qed.

Lemma dagTruncate_local fuel : forall n cs size w, (height n <= fuel)%nat -> file_dag n cs -> 0 <= size < zlen (concat cs) -> zlen (concat cs) < 9223372036854775808 ->
  cut_post n size w (dagTruncate fuel n size w).
Proof.
  induction fuel as [|fu IH]; intros n cs size w Hh Hf Hs Hl.
  - eapply trunc_leaf_local; eauto. destruct n; [reflexivity|cbn in Hh; lia].
  - destruct (node_links n) as [|l0 r0] eqn:El; [eapply trunc_leaf_local; eauto|].
    pose proof (dagTruncate_spec (S fu) n cs size w Hh Hf Hs Hl) as [_ Q].
    destruct Hf as [p d|p b fs Hd Ht Hb Hsz|p b fs ls css Hls Hu Hd Ht Hda HF Hb Hsz]; try discriminate. cbn [node_links] in El.
    cbn [dagTruncate node_links] in *. rewrite El, Hd in *. rewrite <- El in *. rewrite (resized_nil fs Hda) in *.
    pose proof (trunc_links_spec (dagTruncate fu) ls css 0 0 size fs [] w) as S. pose proof (trunc_links_local (dagTruncate fu) ls css 0 0 size fs [] w) as L. rewrite Z.sub_0_r in S, L.
    assert (S' : tlinks_post ls css 0 fs [] size w (trunc_links (dagTruncate fu) ls 0 0 size (resized fs []) w)).
    { apply S; auto; try lia. intros l cs s w' Hin Hcs Hss Hll. apply dagTruncate_spec; auto. pose proof (height_child p b ls l Hin). lia. }
    assert (L' : lcut_post ls 0 size w (trunc_links (dagTruncate fu) ls 0 0 size (resized fs []) w)).
    { apply L; auto; try lia. intros l cs s w' Hin Hcs Hss Hll. pose proof (height_child p b ls l Hin). split; [apply dagTruncate_spec; auto; lia|eapply IH; eauto; lia]. }
    clear S L. destruct (trunc_links _ _ _ _ _ _ _) as [r w']. destruct S' as [Sg S']. unfold lcut_post in L'. cbn [fst snd] in *.
    destruct r as [[[[e nc]|] f']|e| |]; try contradiction.
    2:{ unfold cut_post. cbn [fst]. destruct L' as [H|(m & H1 & H2)]; [now left|right]. exists m. split; [now apply (cut_links (bl ls))|exact H2]. }
    destruct S' as (j & l & cs & csn & s & w1 & S1 & S2 & S3 & S4 & S5 & S6 & S7 & S8 & S9 & S10). cbn [Nat.add] in S1. subst e.
    assert (Hsn : seal nc = nc) by (eapply file_dag_seal, S6).
    destruct L' as (j' & E & Hj & L1 & L2). cbn [Nat.add] in E. subst j'. destruct (L2 (make_link [] nc) Hsn) as (L3 & (lo0 & L4) & L5). clear L2.
    pose proof (add_cases nc w') as A. destruct (dserv_add nc None w') as [[u|e| |] w2]; try destruct A as [A1 A2]; try contradiction.
    2:{ unfold cut_post. cbn [fst]. left. intros C. apply A1. eapply wgrow_can_add; eassumption. }
    rewrite Hsn in A1.
    destruct (GetBytes f') as [d|e| |] eqn:Eb; cbn [fst snd] in Q; try contradiction.
    2:{ exfalso. pose proof (unmarshal_good b fs Hd) as [Hg [t Hty]]. unfold GetBytes, marshal_data in Eb; rewrite S9 in Eb; cbn [resized set_blocksizes set_filesize d_type] in Eb; rewrite Hty in Eb; discriminate. }
    set (ls' := firstn j ls ++ [make_link [] nc]) in *.
    assert (Hu' : Forall (fun l => lname l = []) ls').
    { apply Forall_app. split; [|constructor; [reflexivity|constructor]]. rewrite <- (firstn_skipn j ls) in Hu. now apply Forall_app in Hu. }
    assert (Hse : seal (NProto p d ls') = NProto p d ls') by (cbn [seal]; rewrite lsort_unnamed by exact Hu'; reflexivity). rewrite Hse.
    unfold cut_post. cbn [fst snd]. split; [|split].
    + intros m H. apply L1. now apply (cut_links (NProto p b ls)).
    + intros lo hi m B Hhi. apply (block_links (bl ls')); [reflexivity|]. apply L3; [now apply (block_links (NProto p b ls))|exact Hhi].
    + eapply (grown_trans _ _ _ _ (fun m => m = nc)); [exact L5|exists [(nc, None)]; split; [exact A1|]; intros m o [E|[]]; injection E as <- _; reflexivity|cbn beta|cbn beta; intros m ->].
      * intros m (lo & B). exists lo. now apply (block_links (bl ls')).
      * exists lo0. now apply (block_links (bl ls')).
Qed.

(** ** Truncate and GetNode *)

Lemma truncate_to_local split size n c w : file_content n c -> zlen c < 9223372036854775808 -> 0 <= size < zlen c ->
  match truncate_to split size n w with
  | (Ok n', (_, w')) =>
      (forall m, cut_needs n size m -> dserv_get w m = Ok m) /\
      (forall lo hi m, block_at n lo hi m -> hi <= size -> block_at n' lo hi m) /\
      grown w w' (fun m => m = n' \/ exists lo, block_at n' lo size m)
  | (Err _, _) => ~ can_add w \/ exists m, cut_needs n size m /\ dserv_get w m <> Ok m
  | _ => False
  end.
Proof.
  intros Hf Hl Hs. unfold truncate_to. destruct Hf as (cs & Hcs & Ec).
  unfold mTruncate. unfold bind at 1. rewrite Sync_none by reflexivity. unfold bind at 1.
  assert (S : mSize (NewDagModifier n, w) = (Ok (zlen c), (NewDagModifier n, w))).
  { unfold mSize, bind, cur_node, lift, get_mod. cbn [fst snd NewDagModifier m_node m_buf]. rewrite (fileSize_dag n cs Hcs) by (rewrite <- Ec; exact Hl). cbn [fst m_buf]. unfold ret.
    rewrite <- Ec. now rewrite i64_small by lia. }
  rewrite S. replace (size =? zlen c) with false by lia. replace (zlen c <? size) with false by lia.
  unfold bind at 1, truncate_cur at 1. cbn [fst snd NewDagModifier m_node]. rewrite u64_small by (unfold two64; lia).
  pose proof (dagTruncate_spec (weight n) n cs size w (height_weight n) Hcs ltac:(rewrite <- Ec; lia) ltac:(rewrite <- Ec; lia)) as T.
  pose proof (dagTruncate_local (weight n) n cs size w (height_weight n) Hcs ltac:(rewrite <- Ec; lia) ltac:(rewrite <- Ec; lia)) as L.
  destruct (dagTruncate (weight n) n size w) as [[nn|e| |] w2]; destruct T as [Tg T]; unfold cut_post in L; cbn [fst snd] in *; try contradiction; [|exact L].
  destruct (tr_dag _ _ _ _ _ _ T) as (cs' & T1 & T2).
  unfold bind at 1. match goal with |- context [mod_add nn (?mm, w2)] => pose proof (mod_add_spec mm w2 nn) as B; destruct (mod_add nn (mm, w2)) as [[u6|e| |] [m6 w6]] eqn:Em end; try contradiction.
  2:{ destruct B as (_ & _ & B). left. intros C. apply B. eapply wgrow_can_add; [exact Tg|exact C]. }
  destruct B as (Em6 & B1 & B2 & B3). assert (Es : seal nn = nn) by (eapply file_dag_seal, T1). rewrite Es in *.
  unfold upd_mod. cbn [fst snd]. unfold mGetNode, bind. rewrite Sync_none by (rewrite Em6; clear; destruct n; reflexivity). cbn [fst m_set_node m_node].
  destruct L as (L1 & L2 & L3). split; [exact L1|]. split; [exact L2|].
  eapply (grown_trans _ _ _ _ (fun m => m = nn)); [exact L3| |cbn beta; intros m (lo & B); right; now exists lo|cbn beta; now left].
  exists [(nn, None)]. split; [exact B2|]. intros m o [E|[]]. injection E as <- _. reflexivity.
Qed.

(** ** Statements *)

Lemma overwrite_needs split wbsize b off n c w : file_content n c -> zlen c < 9223372036854775808 -> 0 <= off -> off + zlen b <= zlen c -> can_add w -> serves w ->
  (forall lo hi m, block_at n lo hi m -> overlaps off (zlen b) lo hi -> dserv_get w m = Ok m) ->
  exists n' s', write_back split wbsize b off n w = (Ok n', s').
Proof.
  intros Hf Hl Ho He Ha Hse H. pose proof (write_back_local split wbsize b off n c w Hf Hl Ho He) as S.
  destruct (write_back split wbsize b off n w) as [[n'|e| |] [m' w']]; try contradiction; [eauto|]. exfalso. destruct S as [S|(lo & hi & m & B & O & Hm)]; [apply S; auto|]. apply Hm. eapply H; eassumption.
Qed.
Lemma overwrite_kept split wbsize b off n c w n' s' : file_content n c -> zlen c < 9223372036854775808 -> 0 <= off -> off + zlen b <= zlen c ->
  write_back split wbsize b off n w = (Ok n', s') ->
  forall lo hi m, block_at n lo hi m -> if_overlaps off (zlen b) lo hi (dserv_get (snd s') m = Ok m) (block_at n' lo hi m).
Proof.
  intros Hf Hl Ho He E. pose proof (write_back_local split wbsize b off n c w Hf Hl Ho He) as S. rewrite E in S. destruct s' as [m' w']. destruct S as (S1 & S2 & _).
  intros lo hi m B. split; intros H; [eapply S1; eassumption|now apply S2].
Qed.
Lemma overwrite_written split wbsize b off n c w n' s' : file_content n c -> zlen c < 9223372036854775808 -> 0 <= off -> off + zlen b <= zlen c ->
  write_back split wbsize b off n w = (Ok n', s') ->
  exists a, w_added (snd s') = w_added w ++ a /\ forall m o, In (m, o) a -> m = n' \/ exists lo hi, block_at n' lo hi m /\ overlaps off (zlen b) lo hi.
Proof.
  intros Hf Hl Ho He E. pose proof (write_back_local split wbsize b off n c w Hf Hl Ho He) as S. rewrite E in S. destruct s' as [m' w']. destruct S as (_ & _ & S). exact S.
Qed.

Lemma truncate_needs split size n c w : file_content n c -> zlen c < 9223372036854775808 -> 0 <= size < zlen c -> can_add w ->
  (exists n' s', truncate_to split size n w = (Ok n', s')) <-> (forall m, cut_needs n size m -> dserv_get w m = Ok m).
Proof.
  intros Hf Hl Hs Ha. pose proof (truncate_to_local split size n c w Hf Hl Hs) as S. destruct (truncate_to split size n w) as [[n'|e| |] [m' w']]; try contradiction.
  - destruct S as (S & _). split; [intros _; exact S|eauto].
  - split; [intros (n' & s' & E); discriminate|]. intros H. exfalso. destruct S as [S|(m & S1 & S2)]; [auto|]. apply S2. now apply H.
Qed.
Lemma truncate_kept split size n c w n' s' : file_content n c -> zlen c < 9223372036854775808 -> 0 <= size < zlen c -> truncate_to split size n w = (Ok n', s') ->
  forall lo hi m, block_at n lo hi m -> hi <= size -> block_at n' lo hi m.
Proof. intros Hf Hl Hs E. pose proof (truncate_to_local split size n c w Hf Hl Hs) as S. rewrite E in S. destruct s' as [m' w']. apply S. Qed.
Lemma truncate_written split size n c w n' s' : file_content n c -> zlen c < 9223372036854775808 -> 0 <= size < zlen c -> truncate_to split size n w = (Ok n', s') ->
  exists a, w_added (snd s') = w_added w ++ a /\ forall m o, In (m, o) a -> m = n' \/ exists lo, block_at n' lo size m.
Proof. intros Hf Hl Hs E. pose proof (truncate_to_local split size n c w Hf Hl Hs) as S. rewrite E in S. destruct s' as [m' w']. apply S. Qed.

(** What Truncate looks at begins at the cut or before. *)
Lemma cut_block n s m : cut_needs n s m -> forall d, tree_bytes n d -> exists lo hi, block_at n lo hi m /\ lo <= s.
Proof.
  induction 1 as [n s pre l post bs E HF Hs|n s pre l post bs d m E HF Ht Hs Hb IH]; intros dn T.
  - inversion T as [? ? HL|? bsn Hne HFn]; subst. { apply leaf_bytes_links in HL. rewrite HL in E. destruct pre; discriminate. }
    rewrite E, map_app in HFn. cbn [map] in HFn. apply Forall2_app_inv_l in HFn as (b1 & b2 & F1 & F2 & ->). inversion F2 as [|? x ? b3 F3 F4]; subst.
    eexists _, _. split; [eapply ba_child; [exact E|exact HF|exact F3]|exact Hs].
  - destruct (IH d Ht) as (lo & hi & B & Hlo). eexists _, _. split; [eapply ba_below; eassumption|lia].
Qed.
