(** Lemmas about truncating files: dagTruncate on any file tree. *)
From Verif Require Import Base Pb PbProofs FSNode FSNodeProofs Dag DagProofs Builder Trickle Importer Reader Modifier
  SpecFile SpecAppend SpecReader SpecModifier BuilderProofs TrickleProofs ImportProofs AppendProofs AppendRun ReaderProofs GrowProofs ModifierProofs.

Lemma fileSize_dag n cs : file_dag n cs -> zlen (concat cs) < 9223372036854775808 -> fileSize n = Ok (zlen (concat cs)).
Proof.
  intros H Hl. pose proof (zlen_nonneg (concat cs)) as H0. pose proof (file_dag_recorded n cs H ltac:(lia)) as R.
  unfold fileSize. destruct n as [p d|p b ls]; cbn [recorded_size] in R.
  - rewrite R in *. rewrite u64_small by (unfold two64; lia). reflexivity.
  - destruct R as (f & -> & <-). reflexivity.
Qed.

(** The file node [f0] with the sizes of the contents [css]. *)
Definition resized (f0 : FSNode) (css : list (list bytes)) : FSNode :=
  set_blocksizes (map csize css) (set_filesize (Some (mod64 (zlen (concat (concat css))))) f0).

Lemma resized_nil f : getData f = [] -> RemoveAllBlockSizes f = resized f [].
Proof. intros H. unfold RemoveAllBlockSizes, resized. rewrite H. destruct f. reflexivity. Qed.

Lemma resized_add f css cs s : s = zlen (concat cs) -> s < 9223372036854775808 -> AddBlockSize s (resized f css) = resized f (css ++ [cs]).
Proof.
  intros -> Hs. pose proof (zlen_nonneg (concat cs)) as H0. rewrite AddBlockSize_eq. unfold resized.
  apply pbdata_eq; cbn [set_blocksizes set_filesize d_type d_data d_filesize d_blocksizes d_hashtype d_fanout d_unrec getFilesize]; try reflexivity.
  - f_equal. rewrite concat_app, zlen_concat_app. cbn [concat]. rewrite app_nil_r. unfold mod64, u64, two64. now rewrite Z.add_mod_idemp_l by lia.
  - rewrite map_app. cbn [map]. now rewrite (mod64_small (zlen (concat cs))) by lia.
Qed.

Lemma resized_good f css : good_data f -> good_data (resized f css).
Proof. intros H. apply good_blocks; [exact H|apply csizes_range|apply u64_range]. Qed.

(** What a successful truncation to [size] makes of [n]. *)
Record truncated (n : node) (cs : list bytes) (size : Z) (w : world) (n' : node) (w' : world) : Prop := {
  tr_dag : exists cs', file_dag n' cs' /\ concat cs' = ztake size (concat cs);
  tr_added : exists a, w_added w' = w_added w ++ a /\ blocks_from n n' a;
  tr_prefix : node_prefix n' = node_prefix n;
  tr_links : node_links n = [] <-> node_links n' = [];
  tr_exact : tsizes_exact n -> tsizes_exact n';
  tr_loose : forall k D, loose k 4 (fun _ => True) (trickle_inner (fun _ => True)) D n ->
               loose k 4 (fun _ => True) (trickle_inner (fun _ => True)) D n'
}.

Definition truncate_post (n : node) (cs : list bytes) (size : Z) (w : world) (x : res node * world) : Prop :=
  wgrow w (snd x) /\
  match fst x with
  | Ok n' => truncated n cs size w n' (snd x)
  | Err _ => ~ good_store w n
  | Panic => False
  | Fuel => False
  end.

Lemma growable_no_links k D n cs : loose k 4 (fun _ => True) (trickle_inner (fun _ => True)) D n -> node_links n = [] -> file_dag n cs -> concat cs = [].
Proof.
  intros H Hl Hd. apply loose_inv in H as ((q & b & ls & f & -> & _ & Hf & _ & Hda) & _). cbn in Hl. subst ls.
  inversion Hd as [|? ? fs Hd1|? ? ? ? ? Hne]; subst; [|congruence]. rewrite Hf in Hd1. apply Ok_inj in Hd1. subst fs. cbn. now rewrite Hda.
Qed.

Lemma truncate_leaf fuel n cs size w : file_dag n cs -> node_links n = [] -> 0 <= size < zlen (concat cs) -> zlen (concat cs) < 9223372036854775808 ->
  truncate_post n cs size w (dagTruncate fuel n size w).
Proof.
  intros Hf Hl Hs Hlen.
  assert (G : forall n', (exists cs', file_dag n' cs' /\ concat cs' = ztake size (concat cs)) -> node_prefix n' = node_prefix n -> node_links n' = [] -> truncate_post n cs size w (Ok n', w)).
  { intros n' Hd Hp Hl'. split; [apply wgrow_refl|]. cbn [fst snd]. constructor; auto.
    - exists []. split; [now rewrite app_nil_r|]. intros l m Hin. rewrite Hl' in Hin. destruct Hin.
    - tauto.
    - intros _ m l Hr Hin. apply reach_leaf in Hr; [|assumption]. subst m. rewrite Hl' in Hin. destruct Hin.
    - intros k D Hlo. pose proof (growable_no_links _ _ _ _ Hlo Hl Hf) as E. unfold bytes in *; rewrite E in Hs; change (zlen (@nil byte)) with 0 in Hs; lia. }
  destruct fuel; cbn [dagTruncate]; rewrite Hl.
  all: destruct (file_dag_leaf_inv _ _ Hf Hl) as [(p & d & -> & ->)|(p & b & fs & -> & -> & Hd & Ht & Hb & Hsz)]; cbn [concat] in *; rewrite app_nil_r in *.
  1,3: replace (zlen d <? size) with false by lia; apply G; [|reflexivity|reflexivity]; exists [ztake size d]; split; [constructor|cbn; apply app_nil_r].
  all: rewrite Hd; replace (zlen (getData fs) <? size) with false by lia;
    assert (Ed : obytes (option_map (ztake size) (d_data fs)) = ztake size (getData fs)) by (unfold getData; destruct (d_data fs); cbn; [reflexivity|now rewrite ztake_nil]);
    destruct (WrapData_decode (option_map (ztake size) (d_data fs))) as (b' & -> & Hb');
      [unfold bytes in *; rewrite Ed, zlen_ztake by lia; unfold two64; lia|];
    apply G; [|reflexivity|reflexivity]; eexists; split; [eapply fd_leaf; [exact Hb'|right; reflexivity|reflexivity|]|];
    [cbn [d_filesize getData d_data]; f_equal; symmetry; apply mod64_small; fold (obytes (option_map (ztake size) (d_data fs))); rewrite Ed, zlen_ztake by lia; lia
    |cbn [concat]; rewrite app_nil_r; exact Ed].
Qed.

Definition tlinks_post (ls : list link) (css : list (list bytes)) (i : nat) (f0 : FSNode) (css0 : list (list bytes)) (size : Z) (w : world)
  (x : res (option (nat * node) * FSNode) * world) : Prop :=
  wgrow w (snd x) /\
  match fst x with
  | Ok (Some (e, nc), f') => exists j l cs csn s w1, e = (i + j)%nat /\ nth_error ls j = Some l /\ nth_error css j = Some cs /\
      w_added w1 = w_added w /\ truncated (lto l) cs s w1 nc (snd x) /\ file_dag nc csn /\ concat csn = ztake s (concat cs) /\ 0 <= s < zlen (concat cs) /\
      f' = resized f0 (css0 ++ firstn j css ++ [csn]) /\
      concat (concat (firstn j css ++ [csn])) = ztake size (concat (concat css))
  | Ok (None, _) => False
  | Err _ => ~ (forall l, In l ls -> good_store w (lto l) /\ dserv_get w (lto l) = Ok (lto l))
  | Panic => False
  | Fuel => False
  end.

Lemma trunc_links_spec rec :
  forall ls css i cur size f0 css0 w,
  (forall l cs s w', In l ls -> file_dag (lto l) cs -> 0 <= s < zlen (concat cs) -> zlen (concat cs) < 9223372036854775808 ->
     truncate_post (lto l) cs s w' (rec (lto l) s w')) ->
  Forall2 file_dag (map lto ls) css ->
  0 <= cur <= size -> size < cur + zlen (concat (concat css)) < 9223372036854775808 ->
  tlinks_post ls css i f0 css0 (size - cur) w (trunc_links rec ls i cur size (resized f0 css0) w).
Proof.
  induction ls as [|l ls IH]; intros css i cur size f0 css0 w Hrec HF Hc Htot; inversion HF as [|? cs ? css' Hcs HF']; subst; cbn [trunc_links].
  - cbn in Htot. change (zlen (@nil byte)) with 0 in Htot. lia.
  - cbn [concat] in Htot. rewrite concat_app, zlen_app in Htot.
    pose proof (zlen_nonneg (concat cs)) as Hc0. pose proof (zlen_nonneg (concat (concat css'))) as Hc1.
    pose proof (get_cases w (lto l)) as Gc. destruct (dserv_get w (lto l)) as [c|e| |] eqn:Eg; try contradiction.
    2:{ split; [apply wgrow_refl|]. cbn [fst snd]. intros H. destruct (H l (or_introl eq_refl)) as [_ H1]. congruence. }
    subst c. rewrite (fileSize_dag _ _ Hcs) by lia. rewrite (u64_small (cur + _)) by (unfold two64; lia).
    destruct (size <? cur + zlen (concat cs)) eqn:E.
    + rewrite u64_small by (unfold two64; lia).
      pose proof (Hrec l cs (size - cur) w (or_introl eq_refl) Hcs ltac:(lia) ltac:(lia)) as P.
      destruct (rec (lto l) (size - cur) w) as [[nc|e| |] w']; destruct P as [Pg P]; cbn [fst snd] in *; try contradiction.
      * split; [exact Pg|]. cbn [fst snd]. destruct (tr_dag _ _ _ _ _ _ P) as (csn & D1 & D2).
        exists O, l, cs, csn, (size - cur), w. split; [lia|]. split; [reflexivity|]. split; [reflexivity|]. split; [reflexivity|]. split; [exact P|].
        split; [exact D1|]. split; [exact D2|]. split; [lia|]. split.
        -- cbn [firstn app]. apply resized_add; [rewrite D2, zlen_ztake by lia; reflexivity|lia].
        -- cbn [firstn app concat]. rewrite app_nil_r, concat_app, D2. symmetry. apply ztake_app_l. lia.
      * split; [exact Pg|]. cbn [fst]. intros H. apply P. apply H. now left.
    + rewrite (resized_add f0 css0 cs) by (auto; lia).
      specialize (IH css' (S i) (cur + zlen (concat cs)) size f0 (css0 ++ [cs]) w).
      assert (IH' : tlinks_post ls css' (S i) f0 (css0 ++ [cs]) (size - (cur + zlen (concat cs))) w (trunc_links rec ls (S i) (cur + zlen (concat cs)) size (resized f0 (css0 ++ [cs])) w)).
      { apply IH; auto; try lia. intros; apply Hrec; auto; now right. }
      clear IH. destruct (trunc_links _ _ _ _ _ _ _) as [r w']. destruct IH' as [Ig I]. split; [exact Ig|]. cbn [fst snd] in *.
      destruct r as [[[[e nc]|] f']|e| |]; auto.
      * destruct I as (j & l1 & cs1 & csn & s & w1 & I1 & I2 & I3 & I4 & I5 & I6 & I7 & I8 & I9 & I10).
        exists (S j), l1, cs1, csn, s, w1. split; [lia|]. split; [exact I2|]. split; [exact I3|]. split; [exact I4|]. split; [exact I5|]. split; [exact I6|]. split; [exact I7|]. split; [exact I8|]. split.
        -- rewrite I9. cbn [firstn app]. now rewrite <- app_assoc.
        -- cbn [firstn app concat]. rewrite !concat_app in *. cbn [concat] in *. rewrite ztake_app_r by lia. rewrite <- app_assoc in *. rewrite concat_app in *. rewrite I10. f_equal. f_equal. lia.
      * intros H. apply I. intros l0 Hl0. apply H. now right.
Qed.

Lemma dagTruncate_spec fuel : forall n cs size w, (height n <= fuel)%nat -> file_dag n cs -> 0 <= size < zlen (concat cs) -> zlen (concat cs) < 9223372036854775808 ->
  truncate_post n cs size w (dagTruncate fuel n size w).
Proof.
  induction fuel as [|fu IH]; intros n cs size w Hh Hf Hs Hl.
  - apply truncate_leaf; auto. destruct n; [reflexivity|cbn in Hh; lia].
  - destruct (node_links n) as [|l0 r0] eqn:El; [now apply truncate_leaf|].
    destruct Hf as [p d|p b fs Hd Ht Hb Hsz|p b fs ls css Hls Hu Hd Ht Hda HF Hb Hsz]; try discriminate. cbn [node_links] in El.
    cbn [dagTruncate node_links]. rewrite El, Hd. rewrite <- El. rewrite (resized_nil fs Hda).
    pose proof (trunc_links_spec (dagTruncate fu) ls css 0 0 size fs [] w) as S. rewrite Z.sub_0_r in S.
    assert (S' : tlinks_post ls css 0 fs [] size w (trunc_links (dagTruncate fu) ls 0 0 size (resized fs []) w)).
    { apply S; auto; try lia. intros l cs s w' Hin Hcs Hss Hll. apply IH; auto. pose proof (height_child p b ls l Hin). lia. }
    clear S. destruct (trunc_links _ _ _ _ _ _ _) as [r w']. destruct S' as [Sg S']. cbn [fst snd] in *.
    destruct r as [[[[e nc]|] f']|e| |]; try contradiction.
    2:{ split; [exact Sg|]. cbn [fst]. intros G. apply S'. intros l Hin. now apply (good_child w (NProto p b ls)). }
    destruct S' as (j & l & cs & csn & s & w1 & S1 & S2 & S3 & S4 & S5 & S6 & S7 & S8 & S9 & S10). cbn [Nat.add] in S1. subst e.
    cbn [app] in S9.
    assert (Hsn : seal nc = nc) by (eapply file_dag_seal, S6).
    pose proof (add_cases nc w') as A. destruct (dserv_add nc None w') as [[u|e| |] w2]; try destruct A as [A1 A2]; try contradiction.
    2:{ split; [eapply wgrow_trans; eassumption|]. cbn [fst]. intros (C & _). apply A1. eapply wgrow_can_add; eassumption. }
    rewrite Hsn in A1.
    pose proof (unmarshal_good b fs Hd) as [Hg [t Hty]].
    assert (Hg' : good_data f') by (rewrite S9; now apply resized_good).
    destruct (GetBytes f') as [d|e| |] eqn:Eb.
    2-4: exfalso; unfold GetBytes, marshal_data in Eb; rewrite S9 in Eb; cbn [resized set_blocksizes set_filesize d_type] in Eb; rewrite Hty in Eb; discriminate.
    assert (Hd' : FSNodeFromBytes d = Ok f') by (eapply unmarshal_marshal; [exact Hg'|exact Eb]).
    assert (Ety : getType f' = getType fs) by (rewrite S9; reflexivity).
    assert (Eda : getData f' = []) by (rewrite S9; exact Hda).
    set (ls' := firstn j ls ++ [make_link [] nc]).
    assert (Hj : (j < length ls)%nat) by (apply nth_error_Some; congruence).
    assert (Hu' : Forall (fun l => lname l = []) ls').
    { apply Forall_app. split; [|constructor; [reflexivity|constructor]]. rewrite <- (firstn_skipn j ls) in Hu. now apply Forall_app in Hu. }
    assert (Hdag : file_dag (NProto p d ls') (concat (firstn j css ++ [csn]))).
    { eapply fd_node; try eassumption.
      - unfold ls'. now destruct (firstn j ls).
      - rewrite Ety. exact Ht.
      - unfold ls'. rewrite map_app. cbn [map make_link lto]. rewrite Hsn. apply Forall2_app; [|constructor; [exact S6|constructor]].
        rewrite <- firstn_map. clear - HF. revert css HF. generalize (map lto ls) as xs. intros xs css HF. revert j.
        induction HF; intros [|j]; cbn; constructor; auto.
      - rewrite S9. reflexivity.
      - rewrite S9. reflexivity. }
    assert (Hse : seal (NProto p d ls') = NProto p d ls') by (eapply file_dag_seal, Hdag). rewrite Hse.
    assert (Hin : In l ls) by (eapply nth_error_In, S2).
    assert (Hln : forall i l', nth_error ls' i = Some l' -> (i < j)%nat /\ nth_error ls i = Some l' \/ i = j /\ l' = make_link [] nc).
    { intros i l' Hn. unfold ls' in Hn. assert (Lf : length (firstn j ls) = j) by (rewrite firstn_length; lia).
      destruct (Nat.lt_ge_cases i j) as [Hi|Hi].
      - left. split; [exact Hi|]. rewrite nth_error_app1 in Hn by lia. rewrite <- Hn. clear - Hi. revert j i Hi. induction ls as [|x ls IHl]; intros [|j] [|i] Hi; cbn; try lia; auto.
        apply IHl. lia.
      - right. rewrite nth_error_app2, Lf in Hn by lia. destruct (i - j)%nat as [|x] eqn:Ex; [|destruct x; discriminate]. split; [lia|]. cbn in Hn. congruence. }
    destruct (tr_added _ _ _ _ _ _ S5) as (a & T1 & T2).
    split; [eapply wgrow_trans; eassumption|]. cbn [fst snd]. constructor.
    + eexists. split; [exact Hdag|exact S10].
    + exists (a ++ [(nc, None)]). split; [rewrite A1, T1, S4, app_assoc; reflexivity|].
      intros l' m Hl' Hr. cbn [node_links] in *. apply In_nth_error in Hl' as (i & Hi). destruct (Hln i l' Hi) as [(_ & Hn)|(_ & ->)].
      * left. exists l'. split; [eapply nth_error_In, Hn|exact Hr].
      * cbn [make_link lto] in Hr. rewrite Hsn in Hr. rewrite map_app, in_app_iff. inversion Hr as [|? l2 ? Hl2 Hr2]; subst; [right; right; now left|].
        destruct (T2 l2 m Hl2 Hr2) as [(l3 & Hl3 & Hr3)|Hi3]; [|tauto]. left. exists l. split; [exact Hin|]. eapply reach_link; eassumption.
    + reflexivity.
    + cbn [node_links]. split; intros X; [congruence|]. unfold ls' in X. now destruct (firstn j ls).
    + intros Hex. apply tsizes_node. cbn [node_links]. apply tsizes_links in Hex. cbn [node_links] in Hex.
      apply Forall_app. split.
      * rewrite <- (firstn_skipn j ls) in Hex. now apply Forall_app in Hex.
      * constructor; [|constructor]. cbn [make_link lto lsize]. rewrite Hsn.
        assert (Hxn : tsizes_exact nc). { apply (tr_exact _ _ _ _ _ _ S5). unfold links_exact in Hex. rewrite Forall_forall in Hex. apply (Hex l Hin). }
        split; [apply node_size_exact, tsizes_links, Hxn|exact Hxn].
    + intros k D Hlo. apply loose_inv in Hlo as (I1 & I2 & I3 & I4). cbn [node_links] in *.
      destruct I1 as (q & b0 & lx & f & E0 & _ & Hf0 & Ht0 & Hd0). injection E0 as <- <- <-. rewrite Hd in Hf0. apply Ok_inj in Hf0. subst f.
      constructor; cbn [node_links].
      * exists p, d, ls', f'. split; [reflexivity|]. split; [exact I|]. split; [exact Hd'|]. split; [congruence|exact Eda].
      * auto.
      * intros i l' Hn Hi. destruct (Hln i l' Hn) as [(_ & Hn')|(-> & _)]; [exact (I3 i l' Hn' Hi)|exact (I3 j l S2 Hi)].
      * intros i l' Hn Hi. destruct (Hln i l' Hn) as [(_ & Hn')|(-> & ->)]; [exact (I4 i l' Hn' Hi)|].
        cbn [make_link lto]. rewrite Hsn. apply (tr_loose _ _ _ _ _ _ S5). exact (I4 j l S2 Hi).
Qed.
