(** When appending gives the same file as importing everything at once. *)
From Verif Require Import Base Pb PbProofs FSNode FSNodeProofs Dag DagProofs Builder Trickle Importer
  SpecFile SpecStore BuilderProofs ImportProofs AppendProofs AppendRun DirBasic.
From Coq Require Import Permutation.

Lemma bind_ok {S A B} (m : M S A) (f : A -> M S B) s b s' : bind m f s = (Ok b, s') ->
  exists a s1, m s = (Ok a, s1) /\ f a s1 = (Ok b, s').
Proof. unfold bind. destruct (m s) as [[a|e| |] s1]; intros H; try discriminate. eauto. Qed.

Lemma app_inj_len {A} (a : list A) : forall a' b b', a ++ b = a' ++ b' -> length a = length a' -> a = a' /\ b = b'.
Proof. induction a as [|x a IH]; intros [|y a'] b b' H L; try discriminate; [auto|]. injection H as -> H. injection L as L. destruct (IH _ _ _ H L) as [-> ->]. auto. Qed.

Lemma on_db_ok {A} (m : M db A) n d a n' d' : on_db m (n, d) = (Ok a, (n', d')) -> m d = (Ok a, d') /\ n' = n.
Proof. unfold on_db. cbn [fst snd]. destruct (m d) as [r d1]. intros H. injection H as -> <- <-. auto. Qed.

Lemma done_ok d b d' : Done d = (Ok b, d') -> pend d' = pend d /\ cfg d' = cfg d /\ (if b then pend d = [] else pend d <> []).
Proof.
  rewrite Done_spec. intros H. injection H as <- <-. rewrite pend_prepare. split; [reflexivity|]. split.
  - unfold prepareNext, cfg. destruct d as [spl nx er raw mx bu fs off w]; cbn. destruct nx, er; cbn; try reflexivity. destruct spl as [|[] ?]; reflexivity.
  - destruct (pend d); [reflexivity|discriminate].
Qed.

Lemma AddChild_ok x sz n d n' d' : AddChild x sz (n, d) = (Ok tt, (n', d')) ->
  n' = mkFsn (f_prefix n) (f_bytes n) (f_links n ++ [make_link [] (fst x)]) (AddBlockSize sz (f_file n)) /\ pend d' = pend d /\ cfg d' = cfg d.
Proof. unfold AddChild, Add. destruct (dserv_add _ _ _) as [r w]. intros H. injection H as -> <- <-. repeat split. Qed.

Lemma commit_inv n d n' d' : commit (n, d) = (Ok tt, (n', d')) ->
  exists b, GetBytes (f_file n) = Ok b /\ n' = mkFsn (f_prefix n) b (f_links n) (f_file n) /\ d' = d.
Proof.
  unfold commit, Commit. cbn [fst snd]. destruct (GetBytes (f_file n)) as [b|e| |]; cbn [rbind]; intros H; try discriminate.
  injection H as <- <-. eauto.
Qed.

(** ** Links are only added *)

Definition longer (n n' : fsn) : Prop := exists E, f_links n' = f_links n ++ E /\ Forall unnamed E.
Lemma longer_refl n : longer n n. Proof. exists []. split; [now rewrite app_nil_r|constructor]. Qed.
Lemma longer_trans a b c : longer a b -> longer b c -> longer a c.
Proof. intros (E & HE & U) (F & HF & V). exists (E ++ F). split; [now rewrite HF, HE, app_assoc|]. apply Forall_app. auto. Qed.

Lemma add_children_longer mk j : forall n d n' d', add_children mk j (n, d) = (Ok tt, (n', d')) -> longer n n'.
Proof.
  induction j as [|j IH]; intros n d n' d' H; cbn [add_children] in H; [injection H as <- <-; apply longer_refl|].
  apply bind_ok in H as (b & [n1 d1] & H1 & H). apply on_db_ok in H1 as [H1 ->]. destruct b; [injection H as <- <-; apply longer_refl|].
  apply bind_ok in H as (c & [n2 d2] & H2 & H). apply on_db_ok in H2 as [H2 ->].
  apply bind_ok in H as ([] & [n3 d3] & H3 & H). apply AddChild_ok in H3 as (-> & _).
  eapply longer_trans; [|eapply IH, H]. eexists. split; [reflexivity|repeat constructor].
Qed.

Lemma depth_loop_longer fill fuel : forall dp mx n d n' d', depth_loop fill fuel dp mx (n, d) = (Ok tt, (n', d')) -> longer n n'.
Proof.
  induction fuel as [|fuel IH]; intros dp mx n d n' d' H; cbn [depth_loop] in H;
  (destruct (_ || _); [|injection H as <- <-; apply longer_refl]);
  apply bind_ok in H as (b & [n1 d1] & H1 & H); apply on_db_ok in H1 as [H1 ->]; (destruct b; [injection H as <- <-; apply longer_refl|]);
  apply bind_ok in H as ([] & [n2 d2] & H2 & H); apply add_children_longer in H2; [discriminate|].
  eapply longer_trans; [exact H2|eapply IH, H].
Qed.

Lemma commit_longer n d n' d' : commit (n, d) = (Ok tt, (n', d')) -> f_links n' = f_links n.
Proof. intros H. apply commit_inv in H as (b & _ & -> & _). reflexivity. Qed.

(** Not done: the loop over depths starts with a child made by [fill]. *)
Lemma depth_loop_first fill fuel dp mx n d n' d' : depth_loop fill fuel dp mx (n, d) = (Ok tt, (n', d')) ->
  pend d <> [] -> mx = -1 \/ dp < mx ->
  exists x d1 d2 n2, pend d1 = pend d /\ cfg d1 = cfg d /\ fill dp d1 = (Ok x, d2) /\ f_links n2 = f_links n ++ [make_link [] (fst (fst x))] /\ longer n2 n'.
Proof.
  intros H Hp Hm.
  assert (H' : (do d <- on_db Done ;; if d : bool then ret tt else do _ <- add_children (fill dp) (Z.to_nat depthRepeat) ;;
     match fuel with O => lift Fuel | S f => depth_loop fill f (dp + 1) mx end) (n, d) = (Ok tt, (n', d'))).
  { assert (E : (mx =? -1) || (dp <? mx) = true) by lia. destruct fuel; cbn [depth_loop] in H; rewrite E in H; exact H. }
  clear H. apply bind_ok in H' as (b & [n1 d1] & H1 & H). apply on_db_ok in H1 as [H1 ->]. apply done_ok in H1 as (P1 & C1 & B).
  destruct b; [contradiction|]. apply bind_ok in H as ([] & [n2 d2] & H2 & H).
  change (Z.to_nat depthRepeat) with 4%nat in H2. remember 3%nat as j. cbn [add_children] in H2.
  apply bind_ok in H2 as (b & [n3 d3] & H3 & H2). apply on_db_ok in H3 as [H3 ->]. apply done_ok in H3 as (P3 & C3 & B3).
  destruct b; [congruence|]. apply bind_ok in H2 as (x & [n4 d4] & H4 & H2). apply on_db_ok in H4 as [H4 ->].
  apply bind_ok in H2 as ([] & [n5 d5] & H5 & H2). apply AddChild_ok in H5 as (-> & P5 & C5). apply add_children_longer in H2.
  eexists x, d3, d4, _. split; [congruence|]. split; [congruence|]. split; [exact H4|]. split; [|destruct fuel; [discriminate|]; eapply longer_trans; [exact H2|eapply depth_loop_longer, H]].
  reflexivity.
Qed.

(** Done: the loop does nothing. *)
Lemma depth_loop_done fill fuel dp mx n d n' d' : depth_loop fill fuel dp mx (n, d) = (Ok tt, (n', d')) -> pend d = [] ->
  n' = n /\ pend d' = [] /\ cfg d' = cfg d.
Proof.
  intros H Hp. assert (X : exists b d1, Done d = (Ok b, d1)) by (rewrite Done_spec; eauto). destruct X as (b & d1 & X). pose proof (done_ok _ _ _ X) as (P1 & C1 & B).
  assert (b = true) by (destruct b; congruence). subst b.
  destruct fuel; cbn [depth_loop] in H; (destruct (_ || _); [|injection H as <- <-; auto]);
  unfold bind at 1 in H; unfold on_db in H; cbn [fst snd] in H; rewrite X in H; injection H as <- <-; rewrite P1; auto.
Qed.

Lemma add_children_done mk j n d n' d' : add_children mk j (n, d) = (Ok tt, (n', d')) -> pend d = [] ->
  n' = n /\ pend d' = [] /\ cfg d' = cfg d.
Proof.
  intros H Hp. destruct j; cbn [add_children] in H; [injection H as <- <-; auto|].
  apply bind_ok in H as (b & [n1 d1] & H1 & H). apply on_db_ok in H1 as [H1 ->]. apply done_ok in H1 as (P1 & C1 & B).
  destruct b; [|contradiction]. injection H as <- <-. rewrite P1. auto.
Qed.

(** ** Nodes in closed form *)

Definition FS (ss : list Z) : FSNode := set_blocksizes ss (set_filesize (Some (u64 (zsum ss))) (set_type (Some TFile) empty_data)).
Definition enc (ss : list Z) : bytes := match GetBytes (FS ss) with Ok b => b | _ => [] end.

Lemma FS_new : NewFSNode TFile = FS []. Proof. reflexivity. Qed.
Lemma FS_add ss s : AddBlockSize s (FS ss) = FS (ss ++ [s]).
Proof.
  rewrite AddBlockSize_eq. unfold FS. cbn [getFilesize set_blocksizes set_filesize d_filesize d_blocksizes]. rewrite u64_add_u, zsum_app. cbn [zsum]. rewrite Z.add_0_r. reflexivity.
Qed.
Lemma FS_bytes ss : GetBytes (FS ss) = Ok (enc ss).
Proof. unfold enc. destruct (must_marshal_ok (FS ss)) as (b & _ & Hb); [discriminate|]. unfold GetBytes. rewrite Hb. reflexivity. Qed.
Lemma FS_good ss : Forall in_u64 ss -> good_data (FS ss).
Proof.
  intros H. apply good_data_nounrec; [|reflexivity]. unfold fields_ok, FS. cbn. unfold TFile. repeat split; auto; try lia; apply u64_range.
Qed.
Lemma FS_read ss : Forall in_u64 ss -> FSNodeFromBytes (enc ss) = Ok (FS ss).
Proof. intros H. eapply unmarshal_marshal; [apply FS_good, H|apply FS_bytes]. Qed.
Lemma FS_remove ss s : RemoveBlockSize (zlen ss) (FS (ss ++ [s])) = Ok (FS ss).
Proof.
  unfold RemoveBlockSize. change (d_blocksizes (FS (ss ++ [s]))) with (ss ++ [s]). rewrite zlen_app. pose proof (zlen_nonneg ss).
  change (zlen [s]) with 1. replace ((zlen ss <? 0) || (zlen ss + 1 <=? zlen ss)) with false by lia.
  unfold zlen at 1. rewrite Nat2Z.id, nth_error_app2, Nat.sub_diag by lia. cbn [nth_error]. rewrite UpdateFilesize_eq. f_equal.
  unfold FS. cbn [set_blocksizes set_filesize d_blocksizes getFilesize d_filesize]. unfold ztake, zdrop, zlen.
  replace (Z.to_nat (Z.of_nat (length ss) + 1)) with (length ss + 1)%nat by lia. rewrite Nat2Z.id, firstn_app, Nat.sub_diag, firstn_all, firstn_O, app_nil_r.
  rewrite (skipn_all2 (ss ++ [s])) by (rewrite app_length; cbn; lia). rewrite app_nil_r, zsum_app. cbn [zsum].
  assert (E : u64 (u64 (zsum ss + (s + 0)) + i64 (- i64 s)) = u64 (zsum ss)) by (unfold u64, i64, two63, two64; lia).
  rewrite E. reflexivity.
Qed.

Section same.
  Variables (raw : bool) (k : Z) (bu : option prefix) (fs : bool).
  Hypothesis Hk : 1 <= k.
  Local Notation c := (raw, k, bu, fs).

  Lemma c_max d : cfg d = c -> db_maxlinks d = k. Proof. unfold cfg. congruence. Qed.
  Lemma c_bu d : cfg d = c -> db_builder d = bu. Proof. unfold cfg. congruence. Qed.
  Lemma c_raw d : cfg d = c -> db_raw d = raw. Proof. unfold cfg. congruence. Qed.

  (** The node of a chunk, and the child entry made from it. *)
  Definition leafn (x : bytes) : node :=
    if raw then NRaw (raw_prefix bu) x
    else match Commit (SetFileData (Some x) (NewFSNodeOverDag bu TRaw)) with Ok n => GetDagNode n | _ => NRaw (raw_prefix bu) x end.
  Definition lk (x : bytes) : node * Z := (leafn x, zlen x).

  Definition cl (L : list (node * Z)) (b : bytes) : fsn :=
    mkFsn (proto_prefix bu) b (map (fun e => make_link [] (fst e)) L) (FS (map snd L)).
  Definition nd (L : list (node * Z)) : node := GetDagNode (cl L (enc (map snd L))).
  Definition fsz (L : list (node * Z)) : Z := FileSize (FS (map snd L)).
  Definition sub (xs : list bytes) : node * Z := (nd (map lk xs), fsz (map lk xs)).

  Lemma cl_new : NewFSNodeOverDag bu TFile = cl [] []. Proof. reflexivity. Qed.
  Lemma cl_num L b : fNumChildren (cl L b) = zlen L.
  Proof. unfold fNumChildren, NumChildren, cl, FS, zlen. cbn. now rewrite map_length. Qed.
  Lemma cl_add x sz L b d n' d' : AddChild x sz (cl L b, d) = (Ok tt, (n', d')) ->
    n' = cl (L ++ [(fst x, sz)]) b /\ pend d' = pend d /\ cfg d' = cfg d.
  Proof.
    intros H. apply AddChild_ok in H as (-> & H). split; [|exact H]. unfold cl. cbn [f_prefix f_bytes f_links f_file]. rewrite !map_app, FS_add. reflexivity.
  Qed.
  Lemma cl_commit L b d n' d' : commit (cl L b, d) = (Ok tt, (n', d')) -> n' = cl L (enc (map snd L)) /\ d' = d.
  Proof. intros H. apply commit_inv in H as (b' & E & -> & ->). cbn [cl f_file] in E. rewrite FS_bytes in E. injection E as <-. auto. Qed.

  Lemma leaf_ok d x sz d' : cfg d = c -> NewLeafDataNode TRaw d = (Ok (x, sz), d') -> pend d <> [] ->
    exists b, pend d = EvData b :: pend d' /\ cfg d' = c /\ (fst x, sz) = lk b /\ zlen b <= BlockSizeLimit.
  Proof.
    intros Hc H Hp. unfold NewLeafDataNode in H. apply bind_ok in H as (data & d1 & H1 & H).
    assert (X : exists b, data = Some b /\ pend d = EvData b :: pend d1 /\ cfg d1 = c).
    { unfold Next in H1. rewrite <- (pend_prepare d) in *. assert (Ec : cfg (prepareNext d) = c).
      { destruct (done_ok d _ _ (Done_spec d)) as (_ & E & _). congruence. }
      set (p := prepareNext d) in *. destruct (db_err p) eqn:Ee; cbn in H1; rewrite ?Ee in H1; [discriminate|]. injection H1 as <- <-.
      unfold pend at 1 in Hp. assert (Hn : db_next p <> None).
      { rewrite Ee in Hp. intros E. rewrite E in Hp. unfold p, prepareNext in E, Hp, Ee. destruct d as [spl nx er]. cbn in *. destruct nx, er; cbn in *; try discriminate.
        destruct spl as [|[] ?]; cbn in *; try discriminate. now apply Hp. }
      destruct (db_next p) as [b|] eqn:En; [|now destruct Hn]. exists b. split; [reflexivity|]. split; [|exact Ec].
      unfold pend. cbn. rewrite Ee, En. reflexivity. }
    destruct X as (b & -> & Hp1 & Hc1). apply bind_ok in H as (n & d2 & H2 & H). injection H2 as H2 <-.
    apply bind_ok in H as (x0 & d3 & H3 & H). unfold ret in H. injection H as <- <- <-.
    assert (E3 : fst x0 = n /\ pend d3 = pend d1 /\ cfg d3 = cfg d1).
    { unfold ProcessFileStore in H3. destruct (db_fs d1), n; injection H3 as <- <-; repeat split. }
    destruct E3 as (<- & Hp3 & Hc3). exists b. split; [congruence|]. split; [congruence|]. unfold NewLeafNode in H2. cbn [obytes] in *.
    destruct (BlockSizeLimit <? zlen b) eqn:El; [discriminate|]. split; [|lia]. unfold lk, leafn. f_equal.
    rewrite (c_raw _ Hc1), (c_bu _ Hc1) in H2. destruct raw; [congruence|]. destruct (Commit _) as [m| | |]; cbn [rbind] in H2; congruence.
  Qed.

  Definition small (xs : list bytes) : Prop := Forall (fun b => zlen b <= BlockSizeLimit) xs.

  Lemma fill_ok fuel : forall L b d n' d', cfg d = c -> fill_loop (NewLeafDataNode TRaw) fuel (cl L b, d) = (Ok tt, (n', d')) ->
    exists xs, n' = cl (L ++ map lk xs) b /\ pend d = map EvData xs ++ pend d' /\ cfg d' = c /\ small xs /\
      (k <= zlen L + zlen xs \/ pend d' = []) /\ (xs = [] \/ zlen L + zlen xs <= k).
  Proof.
    induction fuel as [|fuel IH]; intros L b d n' d' Hc H; cbn [fill_loop fst snd] in H; rewrite (c_max _ Hc), cl_num in H;
    (destruct (zlen L <? k) eqn:Ek;
     [|injection H as <- <-; exists []; rewrite app_nil_r; cbn; split; [reflexivity|]; split; [reflexivity|]; split; [exact Hc|]; split; [constructor|]; split; [left; unfold zlen in *; cbn; lia|now left]]);
    apply bind_ok in H as (dn & [n1 d1] & H1 & H); apply on_db_ok in H1 as [H1 ->]; apply done_ok in H1 as (P1 & C1 & B);
    (destruct dn;
     [injection H as <- <-; exists []; rewrite app_nil_r, P1; cbn; split; [reflexivity|]; split; [reflexivity|]; split; [congruence|]; split; [constructor|]; split; [now right|now left]|]);
    apply bind_ok in H as ([x sz] & [n2 d2] & H2 & H); apply on_db_ok in H2 as [H2 ->];
    destruct (leaf_ok d1 x sz d2 ltac:(congruence) H2 ltac:(congruence)) as (v & P2 & C2 & E2 & S2);
    apply bind_ok in H as ([] & [n3 d3] & H3 & H); apply cl_add in H3 as (-> & P3 & C3); cbn [fst snd] in *; [discriminate|].
    rewrite E2 in H. apply IH in H as (xs & -> & P4 & C4 & S4 & D4 & B4); [|congruence].
    exists (v :: xs). rewrite <- app_assoc. cbn [map app]. split; [reflexivity|]. split; [rewrite <- P1, P2, <- P3, P4; reflexivity|]. split; [exact C4|].
    split; [constructor; auto|]. rewrite zlen_app in D4, B4. change (zlen [lk v]) with 1 in *. unfold zlen in *. cbn [length] in *.
    split; [destruct D4; [left; lia|now right]|]. right. destruct B4 as [->|]; cbn; lia.
  Qed.

  Lemma layer_ok L b d n' d' : cfg d = c -> FillNodeLayer (cl L b, d) = (Ok tt, (n', d')) ->
    exists xs, n' = cl (L ++ map lk xs) (enc (map snd (L ++ map lk xs))) /\ pend d = map EvData xs ++ pend d' /\ cfg d' = c /\ small xs /\
      (k <= zlen L + zlen xs \/ pend d' = []) /\ (xs = [] \/ zlen L + zlen xs <= k).
  Proof.
    intros Hc H. unfold FillNodeLayer in H. apply bind_ok in H as ([] & [n1 d1] & H1 & H). apply fill_ok in H1 as (xs & -> & H1); [|exact Hc].
    apply cl_commit in H as (-> & ->). exists xs. auto.
  Qed.

  (** With data chunks only, and no more than fit. *)
  Lemma layer_all L b d n' d' ys : cfg d = c -> FillNodeLayer (cl L b, d) = (Ok tt, (n', d')) -> pend d = map EvData ys -> zlen L + zlen ys <= k ->
    n' = cl (L ++ map lk ys) (enc (map snd (L ++ map lk ys))) /\ pend d' = [] /\ cfg d' = c /\ small ys.
  Proof.
    intros Hc H Hp Hl. apply layer_ok in H as (xs & -> & P & C & S & D & B); [|exact Hc]. rewrite Hp in P.
    apply map_eq_app in P as (y1 & y2 & E & E1 & E2). 
    assert (y1 = xs). { clear - E1. revert xs E1. induction y1 as [|a y1 IH]; intros [|z xs] E; try discriminate; [reflexivity|]. injection E as -> E. f_equal. auto. }
    subst y1. destruct D as [D|D].
    - subst ys. rewrite zlen_app in Hl. assert (y2 = []) by (destruct y2; [reflexivity|unfold zlen in *; cbn in *; lia]). subst y2. cbn in E2. rewrite app_nil_r. auto.
    - rewrite D in E2. destruct y2; [|discriminate]. subst ys. rewrite app_nil_r. auto.
  Qed.

  (** More than fit: exactly as many as fit are taken. *)
  Lemma layer_part L b d n' d' ys : cfg d = c -> FillNodeLayer (cl L b, d) = (Ok tt, (n', d')) -> pend d = map EvData ys -> zlen L <= k -> k <= zlen L + zlen ys ->
    exists y1 y2, ys = y1 ++ y2 /\ zlen L + zlen y1 = k /\ n' = cl (L ++ map lk y1) (enc (map snd (L ++ map lk y1))) /\ pend d' = map EvData y2 /\ cfg d' = c /\ small y1.
  Proof.
    intros Hc H Hp Hl Hm. apply layer_ok in H as (xs & -> & P & C & S & D & B); [|exact Hc]. rewrite Hp in P.
    apply map_eq_app in P as (y1 & y2 & E & E1 & E2). 
    assert (y1 = xs). { clear - E1. revert xs E1. induction y1 as [|a y1 IH]; intros [|z xs] E; try discriminate; [reflexivity|]. injection E as -> E. f_equal. auto. }
    subst y1. exists xs, y2. split; [congruence|]. split; [|auto]. 
    destruct D as [D|D].
    - destruct B as [->|B]; [cbn in *; unfold zlen in *; cbn in *|]; lia.
    - rewrite D in E2. destruct y2; [|discriminate]. rewrite app_nil_r in E. subst ys. destruct B as [->|B]; [unfold zlen in *; cbn in *|]; lia.
  Qed.

  (** A sub-graph for at most [k] chunks. *)
  Lemma rec_small f dp d n' d' ys : cfg d = c -> fillTrickleRec f dp (cl [] [], d) = (Ok tt, (n', d')) -> pend d = map EvData ys -> zlen ys <= k ->
    n' = cl (map lk ys) (enc (map snd (map lk ys))) /\ pend d' = [] /\ cfg d' = c /\ small ys.
  Proof.
    intros Hc H Hp Hl. destruct f as [|f]; cbn [fillTrickleRec] in H; [discriminate|].
    apply bind_ok in H as ([] & [n1 d1] & H1 & H). apply (layer_all _ _ _ _ _ ys) in H1 as (-> & P1 & C1 & S1); auto. cbn [app] in *.
    apply bind_ok in H as ([] & [n2 d2] & H2 & H). apply depth_loop_done in H2 as (-> & P2 & C2); [|exact P1].
    apply cl_commit in H as (-> & ->). split; [reflexivity|]. split; [exact P2|]. split; [congruence|exact S1].
  Qed.
  Lemma new_small f dp d r d' ys : cfg d = c -> with_new (NewFSNodeOverDag (db_builder d) TFile) (fillTrickleRec f dp) d = (Ok r, d') ->
    pend d = map EvData ys -> zlen ys <= k -> (fst (fst r), snd r) = sub ys /\ pend d' = [] /\ cfg d' = c /\ small ys.
  Proof.
    intros Hc H Hp Hl. unfold with_new in H. rewrite (c_bu _ Hc), cl_new in H.
    destruct (fillTrickleRec f dp (cl [] [], d)) as [[[]|e| |] [n1 d1]] eqn:E; try discriminate. injection H as <- <-.
    apply (rec_small _ _ _ _ _ ys) in E as (-> & P & C & S); auto.
  Qed.

  (** The root of at most [2 k] chunks. *)
  Definition kids2 (xs : list bytes) : list (node * Z) :=
    map lk (firstn (Z.to_nat k) xs) ++ match skipn (Z.to_nat k) xs with [] => [] | ys => [sub ys] end.

  Lemma kids2_few xs : zlen xs <= k -> kids2 xs = map lk xs.
  Proof. intros H. unfold kids2. unfold zlen in H. rewrite firstn_all2, skipn_all2 by lia. apply app_nil_r. Qed.
  Lemma kids2_app xs ys : zlen xs = k -> ys <> [] -> kids2 (xs ++ ys) = map lk xs ++ [sub ys].
  Proof.
    intros H Hy. unfold kids2. unfold zlen in H. replace (Z.to_nat k) with (length xs) by lia. rewrite firstn_app, skipn_app, Nat.sub_diag, firstn_all, skipn_all, firstn_O, app_nil_r.
    cbn [app skipn]. destruct ys; [now destruct Hy|reflexivity].
  Qed.

  Lemma depth_one fill fuel dp L b d n' d' ys : cfg d = c -> pend d = map EvData ys -> ys <> [] -> zlen ys <= k ->
    (forall d0 (r : xnode * Z) d1, cfg d0 = c -> pend d0 = map EvData ys -> fill dp d0 = (Ok r, d1) -> (fst (fst r), snd r) = sub ys /\ pend d1 = [] /\ cfg d1 = c /\ small ys) ->
    depth_loop fill fuel dp (-1) (cl L b, d) = (Ok tt, (n', d')) ->
    n' = cl (L ++ [sub ys]) b /\ pend d' = [] /\ cfg d' = c /\ small ys.
  Proof.
    intros Hc Hp Hne Hl Hfill H.
    assert (H' : (do d <- on_db Done ;; if d : bool then ret tt else do _ <- add_children (fill dp) (Z.to_nat depthRepeat) ;;
       match fuel with O => lift Fuel | S f => depth_loop fill f (dp + 1) (-1) end) (cl L b, d) = (Ok tt, (n', d'))).
    { destruct fuel; cbn [depth_loop] in H; change (-1 =? -1) with true in H; cbn [orb] in H; exact H. }
    clear H. apply bind_ok in H' as (dn & [n1 d1] & H1 & H). apply on_db_ok in H1 as [H1 ->]. apply done_ok in H1 as (P1 & C1 & B).
    destruct dn; [rewrite Hp in B; destruct ys; [now destruct Hne|discriminate]|]. apply bind_ok in H as ([] & [n2 d2] & H2 & H).
    change (Z.to_nat depthRepeat) with 4%nat in H2. remember 3%nat as j. cbn [add_children] in H2.
    apply bind_ok in H2 as (dn & [n3 d3] & H3 & H2). apply on_db_ok in H3 as [H3 ->]. apply done_ok in H3 as (P3 & C3 & B3).
    destruct dn; [congruence|]. apply bind_ok in H2 as (x & [n4 d4] & H4 & H2). apply on_db_ok in H4 as [H4 ->].
    apply Hfill in H4 as (E4 & P4 & C4 & S4); [|congruence|congruence].
    apply bind_ok in H2 as ([] & [n5 d5] & H5 & H2). apply cl_add in H5 as (-> & P5 & C5). rewrite E4 in H2.
    apply add_children_done in H2 as (-> & P6 & C6); [|congruence]. destruct fuel; [discriminate|].
    apply depth_loop_done in H as (-> & P7 & C7); [|exact P6]. split; [reflexivity|]. split; [exact P7|]. split; [congruence|exact S4].
  Qed.

  Lemma links_unnamed L b : Forall unnamed (f_links (cl L b)).
  Proof. cbn. apply Forall_forall. intros l H. apply in_map_iff in H as (e & <- & _). reflexivity. Qed.

  Lemma layout_two fuel d r d' xs : cfg d = c -> pend d = map EvData xs -> zlen xs <= 2 * k -> Layout fuel d = (Ok r, d') -> r = nd (kids2 xs) /\ small xs.
  Proof.
    intros Hc Hp Hl H. unfold Layout in H. apply bind_ok in H as (x & d1 & H1 & H). apply bind_ok in H as ([] & d2 & H2 & H). unfold ret in H. injection H as <- <-.
    unfold new_subtree, with_new in H1. rewrite (c_bu _ Hc), cl_new in H1.
    destruct (fillTrickleRec fuel (-1) (cl [] [], d)) as [[[]|e| |] [n1 d1']] eqn:E; try discriminate. injection H1 as <- <-. cbn [fst].
    assert (X : n1 = cl (kids2 xs) (enc (map snd (kids2 xs))) /\ small xs).
    { destruct fuel as [|f]; cbn [fillTrickleRec] in E; [discriminate|]. apply bind_ok in E as ([] & [m1 e1] & E1 & E).
      apply bind_ok in E as ([] & [m2 e2] & E2 & E). destruct (Z_le_gt_dec (zlen xs) k) as [Hs|Hs].
      - apply (layer_all _ _ _ _ _ xs) in E1 as (-> & P1 & C1 & S1); auto. cbn [app] in *. apply depth_loop_done in E2 as (-> & P2 & C2); [|exact P1].
        apply cl_commit in E as (-> & ->). rewrite kids2_few by exact Hs. auto.
      - apply (layer_part _ _ _ _ _ xs) in E1 as (y1 & y2 & -> & Hy & -> & P1 & C1 & S1); auto; [|unfold zlen; cbn; lia|unfold zlen in *; cbn; lia].
        cbn [app] in *. change (zlen (@nil (node * Z))) with 0 in Hy. rewrite zlen_app in *. assert (Hy2 : y2 <> []) by (intros ->; unfold zlen in *; cbn in *; lia).
        apply (depth_one _ _ _ _ _ _ _ _ y2) in E2 as (-> & P2 & C2 & S2); auto; [|lia|].
        + apply cl_commit in E as (-> & ->). rewrite kids2_app by (auto; lia). split; [reflexivity|]. unfold small. apply Forall_app. auto.
        + intros d0 r0 d2' Hc0 Hp0 H0. eapply new_small; eauto. lia. }
    destruct X as (-> & S). split; [|exact S]. apply seal_unnamed, (links_unnamed (kids2 xs) (enc (map snd (kids2 xs)))).
  Qed.

  Lemma sizes_leaves xs : small xs -> Forall in_u64 (map snd (map lk xs)).
  Proof.
    intros H. rewrite map_map. cbn. apply Forall_forall. intros z Hz. apply in_map_iff in Hz as (b & <- & Hb). unfold small in H. rewrite Forall_forall in H. specialize (H b Hb).
    pose proof (zlen_nonneg b). unfold in_u64, BlockSizeLimit, two64 in *. lia.
  Qed.
  Lemma fsz_range L : in_u64 (fsz L).
  Proof. unfold fsz, FileSize, size. change (getType (FS (map snd L))) with TFile. cbn. apply u64_range. Qed.
  Lemma firstn_small j xs : small xs -> small (firstn j xs).
  Proof. intros H. unfold small in *. rewrite <- (firstn_skipn j xs) in H. apply Forall_app in H. apply H. Qed.
  Lemma sizes_two xs : small xs -> Forall in_u64 (map snd (kids2 xs)).
  Proof.
    intros H. unfold kids2. rewrite map_app. apply Forall_app. split; [apply sizes_leaves, firstn_small, H|].
    destruct (skipn _ _); [constructor|]. constructor; [apply fsz_range|constructor].
  Qed.

  Lemma open_cl L : Forall in_u64 (map snd L) -> NewFSNFromDag (proto_prefix bu) (enc (map snd L)) (f_links (cl L [])) = Ok (cl L (enc (map snd L))).
  Proof. intros H. unfold NewFSNFromDag. rewrite FS_read by exact H. reflexivity. Qed.

  Lemma get_fsn_ok s a s' : get_fsn s = (Ok a, s') -> a = fst s /\ s' = s. Proof. intros H. injection H as <- <-. auto. Qed.
  Lemma get_db_ok s a s' : get_db s = (Ok a, s') -> a = snd s /\ s' = s. Proof. intros H. injection H as <- <-. auto. Qed.
  Lemma lift_ok {S A} (r : res A) (s : S) a s' : lift r s = (Ok a, s') -> r = Ok a /\ s' = s. Proof. intros H. injection H as -> <-. auto. Qed.
  Lemma ret_ok {S A} (x : A) (s : S) a s' : ret x s = (Ok a, s') -> a = x /\ s' = s. Proof. intros H. injection H as -> <-. auto. Qed.

  (** Not more children than direct leaves: there is no last sub-graph to fill. *)
  Lemma fill_last_none fuel rec dp rp L b d n' d' : cfg d = c -> zlen L <= k ->
    appendFillLastChild fuel rec dp rp (cl L b, d) = (Ok tt, (n', d')) -> n' = cl L b /\ d' = d.
  Proof.
    intros Hc Hl H. unfold appendFillLastChild in H. apply bind_ok in H as (n & s1 & H1 & H). apply get_fsn_ok in H1 as (-> & ->).
    apply bind_ok in H as (d0 & s1 & H1 & H). apply get_db_ok in H1 as (-> & ->). cbn [fst snd] in H. rewrite cl_num, (c_max _ Hc) in H.
    replace (zlen L <=? k) with true in H by lia. apply ret_ok in H as (_ & H). injection H as -> ->. auto.
  Qed.

  Lemma pend_nil (ys : list bytes) d : pend d = map EvData ys -> pend d = [] <-> ys = [].
  Proof. intros ->. split; [now destruct ys|now intros ->]. Qed.

  (** The last sub-graph of depth one, with room for everything. *)
  Lemma rec_last fuel rfuel xs d n' d' ys : cfg d = c -> pend d = map EvData ys -> zlen xs + zlen ys <= k -> 
    appendRec fuel rfuel (-1) (cl (map lk xs) (enc (map snd (map lk xs))), d) = (Ok tt, (n', d')) ->
    n' = cl (map lk (xs ++ ys)) (enc (map snd (map lk (xs ++ ys)))) /\ pend d' = [] /\ cfg d' = c /\ small ys.
  Proof.
    intros Hc Hp Hl H.
    assert (H' : (do dn <- on_db Done ;; if dn : bool then ret tt else match rfuel with O => lift Fuel | S rf =>
      do n <- get_fsn ;; do b <- get_db ;; let (depth0, repeatNumber) := trickleDepthInfo n (db_maxlinks b) in
      do depth <- (if depth0 =? 0 then do _ <- FillNodeLayer ;; ret 1 else ret depth0) ;;
      if depth =? -1 then ret tt else
      do _ <- appendFillLastChild fuel (appendRec fuel rf) depth repeatNumber ;;
      do d2 <- on_db Done ;;
      let depth' := if d2 : bool then depth else depth + 1 in
      (if (depth' <? -1) then depth_loop (new_subtree fuel) fuel depth' (-1) else ret tt) end) (cl (map lk xs) (enc (map snd (map lk xs))), d) = (Ok tt, (n', d'))).
    { destruct rfuel; cbn [appendRec] in H; change (-1 =? 0) with false in H; exact H. }
    clear H. apply bind_ok in H' as (dn & [n1 d1] & H1 & H). apply on_db_ok in H1 as (H1 & ->). apply done_ok in H1 as (P1 & C1 & B).
    destruct dn.
    - apply ret_ok in H as (_ & H). injection H as -> ->. apply (pend_nil ys) in B; [|exact Hp]. subst ys. rewrite app_nil_r, P1. cbn in Hp. repeat split; auto; [congruence|constructor].
    - destruct rfuel as [|rf]; [discriminate|]. assert (Hy : ys <> []) by (intros ->; now apply B).
      apply bind_ok in H as (n & s1 & H2 & H). apply get_fsn_ok in H2 as (-> & ->). apply bind_ok in H as (d0 & s1 & H2 & H). apply get_db_ok in H2 as (-> & ->). cbn [fst snd] in H.
      assert (Hx : zlen xs < k) by (destruct ys; [now destruct Hy|unfold zlen in *; cbn in *; lia]).
      unfold trickleDepthInfo in H. rewrite cl_num, (c_max d1) in H by congruence. unfold zlen at 1 in H. rewrite map_length in H. fold (zlen xs) in H.
      replace (zlen xs <? k) with true in H by lia. change (0 =? 0) with true in H. cbn iota in H.
      apply bind_ok in H as (dp & [n2 d2] & H2 & H). apply bind_ok in H2 as ([] & [n3 d3] & H3 & H2). apply ret_ok in H2 as (-> & H2). injection H2 as -> ->.
      apply (layer_all _ _ _ _ _ ys) in H3 as (-> & P3 & C3 & S3); [|congruence|congruence|unfold zlen in *; rewrite map_length; lia].
      rewrite <- map_app in H. change (1 =? -1) with false in H. cbn iota in H. apply bind_ok in H as ([] & [n4 d4] & H4 & H).
      apply fill_last_none in H4 as (-> & ->); [|exact C3|unfold zlen in *; rewrite map_length, app_length; lia].
      apply bind_ok in H as (dn & [n5 d5] & H5 & H). apply on_db_ok in H5 as (H5 & ->). apply done_ok in H5 as (P5 & C5 & B5).
      destruct dn; [|contradiction]. change (1 <? -1) with false in H. cbn iota zeta in H. apply ret_ok in H as (_ & H). injection H as -> ->. rewrite P5. repeat split; congruence || auto.
  Qed.

  Lemma seal_nd L : seal (nd L) = nd L.
  Proof. apply seal_unnamed, (links_unnamed L (enc (map snd L))). Qed.

  (** Where the sub-graphs after the direct leaves begin. *)
  Definition tail (fuel : nat) (depth : Z) : M (fsn * db) unit :=
    do d2 <- on_db Done ;; let depth' := if d2 : bool then depth else depth + 1 in do _ <- depth_loop (new_subtree fuel) fuel depth' (-1) ;; commit.

  Lemma tail_one fuel dp L b d n' d' ys : cfg d = c -> pend d = map EvData ys -> zlen ys <= k ->
    tail fuel dp (cl L b, d) = (Ok tt, (n', d')) ->
    let L' := L ++ match ys with [] => [] | _ => [sub ys] end in n' = cl L' (enc (map snd L')) /\ small ys.
  Proof.
    intros Hc Hp Hl H. unfold tail in H. apply bind_ok in H as (dn & [n1 d1] & H1 & H). apply on_db_ok in H1 as (H1 & ->). apply done_ok in H1 as (P1 & C1 & B).
    cbn zeta in *. apply bind_ok in H as ([] & [n2 d2] & H2 & H). destruct dn.
    - apply (pend_nil ys) in B; [|exact Hp]. subst ys. apply depth_loop_done in H2 as (-> & P2 & C2); [|now rewrite P1, Hp].
      apply cl_commit in H as (-> & ->). rewrite app_nil_r. split; [reflexivity|constructor].
    - assert (Hy : ys <> []) by (intros ->; now apply B). apply (depth_one _ _ _ _ _ _ _ _ ys) in H2 as (-> & P2 & C2 & S2); try congruence; auto.
      + apply cl_commit in H as (-> & ->). destruct ys; [now destruct Hy|]. auto.
      + intros d0 r d3 Hc0 Hp0 H0. eapply new_small; eauto.
  Qed.

  Lemma append_inv_cl fuel rfuel L d r base' d' : cfg d = c -> Forall in_u64 (map snd L) -> Append fuel rfuel (nd L) d = (Ok r, base', d') ->
    exists n', append_body fuel rfuel (cl L (enc (map snd L)), d) = (Ok tt, (n', d')) /\ r = GetDagNode n'.
  Proof.
    intros Hc Hs H. unfold Append, nd, GetDagNode in H. cbn [f_prefix f_bytes cl] in H. change (f_links (mkFsn (proto_prefix bu) (enc (map snd L)) (map (fun e : node * Z => make_link [] (fst e)) L) (FS (map snd L)))) with (f_links (cl L [])) in H.
    rewrite open_cl in H by exact Hs. destruct (append_body _ _ _) as [[[]|e| |] [n' d1]]; try discriminate. injection H as <- <- <-. eauto.
  Qed.

  Lemma body_split fuel rfuel L b d n' d' : cfg d = c -> append_body fuel rfuel (cl L b, d) = (Ok tt, (n', d')) ->
    let rp := (zlen L - k) mod 4 in
    if zlen L <? k then
      exists n1 d1 d2, FillNodeLayer (cl L b, d) = (Ok tt, (n1, d1)) /\ cfg d2 = cfg d1 /\ pend d2 = pend d1 /\
        (pend d1 = [] /\ n' = n1 \/ pend d1 <> [] /\ (do _ <- appendFillLastChild fuel (appendRec fuel rfuel) 0 0 ;; tail fuel 1) (n1, d2) = (Ok tt, (n', d')))
    else (do _ <- appendFillLastChild fuel (appendRec fuel rfuel) ((zlen L - k) / 4) rp ;; tail fuel ((zlen L - k) / 4 + 1)) (cl L b, d) = (Ok tt, (n', d')).
  Proof.
    intros Hc H. cbn zeta. unfold append_body in H. apply bind_ok in H as (n & s1 & H2 & H). apply get_fsn_ok in H2 as (-> & ->). apply bind_ok in H as (d0 & s1 & H2 & H). apply get_db_ok in H2 as (-> & ->). cbn [fst snd] in H.
    unfold trickleDepthInfo in H. rewrite cl_num, (c_max _ Hc) in H. destruct (zlen L <? k) eqn:E.
    - change (0 =? 0) with true in H. cbn iota in H. apply bind_ok in H as (o & [n2 d2] & H2 & H). apply bind_ok in H2 as ([] & [n1 d1] & H1 & H2).
      apply bind_ok in H2 as (dn & [n3 d3] & H3 & H2). apply on_db_ok in H3 as (H3 & ->). apply done_ok in H3 as (P3 & C3 & B). apply ret_ok in H2 as (-> & H2). injection H2 as -> ->.
      exists n1, d1, d3. split; [exact H1|]. split; [exact C3|]. split; [exact P3|]. destruct dn; [left|right].
      + apply ret_ok in H as (_ & H). injection H as -> ->. auto.
      + auto.
    - unfold depthRepeat in H. replace ((zlen L - k) / 4 + 1 =? 0) with false in H by lia. cbn iota in H. unfold bind at 1 in H. unfold ret at 1 in H.
      replace ((zlen L - k) / 4 + 1 - 1) with ((zlen L - k) / 4) in H by lia. exact H.
  Qed.

  Lemma small_app a b : small a -> small b -> small (a ++ b).
  Proof. intros Ha Hb. unfold small. apply Forall_app. auto. Qed.

  Lemma append_two fuel rfuel xs d r base' d' ys : cfg d = c -> small xs -> pend d = map EvData ys -> zlen xs + zlen ys <= 2 * k ->
    Append fuel rfuel (nd (kids2 xs)) d = (Ok r, base', d') -> r = nd (kids2 (xs ++ ys)).
  Proof.
    intros Hc Hs Hp Hl H. apply append_inv_cl in H as (n' & H & ->); [|exact Hc|apply sizes_two, Hs].
    apply body_split in H; [|exact Hc]. cbn zeta in H. destruct (Z_le_gt_dec (zlen xs) k) as [Hx|Hx].
    - rewrite kids2_few in H by exact Hx. assert (El : zlen (map lk xs) = zlen xs) by (unfold zlen; now rewrite map_length). rewrite El in H.
      destruct (zlen xs <? k) eqn:Ex.
      + destruct H as (n1 & d1 & d2 & H1 & C2 & P2 & H). destruct (Z_le_gt_dec (zlen xs + zlen ys) k) as [Hy|Hy].
        * apply (layer_all _ _ _ _ _ ys) in H1 as (-> & P1 & C1 & S1); auto; [|lia]. destruct H as [[_ ->]|[B _]]; [|contradiction].
          rewrite <- map_app, kids2_few by (rewrite zlen_app; lia). reflexivity.
        * apply (layer_part _ _ _ _ _ ys) in H1 as (y1 & y2 & -> & Hy1 & -> & P1 & C1 & S1); auto; try lia. rewrite zlen_app in *. rewrite El in *.
          assert (Hn : y2 <> []) by (intros ->; unfold zlen in *; cbn in *; lia).
          destruct H as [[B _]|[_ H]]; [rewrite P1 in B; destruct y2; [now destruct Hn|discriminate]|].
          rewrite <- map_app in H. apply bind_ok in H as ([] & [n3 d3] & H3 & H). apply fill_last_none in H3 as (-> & ->); [|congruence|unfold zlen in *; rewrite map_length, app_length; lia].
          apply (tail_one _ _ _ _ _ _ _ y2) in H as (-> & S); try congruence; [|lia]. rewrite app_assoc, kids2_app; [|rewrite zlen_app; lia|exact Hn].
          destruct y2; [now destruct Hn|]. reflexivity.
      + apply bind_ok in H as ([] & [n3 d3] & H3 & H). apply fill_last_none in H3 as (-> & ->); [|exact Hc|lia].
        apply (tail_one _ _ _ _ _ _ _ ys) in H as (-> & S); auto; [|lia]. destruct ys as [|y ys].
        * rewrite !app_nil_r, kids2_few by exact Hx. reflexivity.
        * rewrite kids2_app; [reflexivity|lia|discriminate].
    - assert (X : exists x1 x2, xs = x1 ++ x2 /\ zlen x1 = k /\ x2 <> []).
      { exists (firstn (Z.to_nat k) xs), (skipn (Z.to_nat k) xs). rewrite firstn_skipn. split; [reflexivity|]. unfold zlen in *. rewrite firstn_length. split; [lia|].
        intros E. apply (f_equal (@length _)) in E. rewrite skipn_length in E. cbn in E. lia. }
      destruct X as (x1 & x2 & -> & Hx1 & Hx2). rewrite kids2_app in H by auto. assert (El : zlen (map lk x1) = k) by (unfold zlen in *; now rewrite map_length).
      rewrite zlen_app in H. assert (Hl2 : zlen x1 + zlen x2 + zlen ys <= 2 * k) by (rewrite <- zlen_app; exact Hl). rewrite El in H. change (zlen [sub x2]) with 1 in H. replace (k + 1 <? k) with false in H by lia. replace (k + 1 - k) with 1 in H by lia.
      change (1 / 4) with 0 in H. change (1 mod 4) with 1 in H. apply bind_ok in H as ([] & [n1 d1] & H1 & H).
      apply Forall_app in Hs as [Hs1 Hs2].
      assert (X : n1 = cl (map lk x1 ++ [sub (x2 ++ ys)]) (enc (map snd (map lk x1 ++ [sub x2]))) /\ pend d1 = [] /\ cfg d1 = c).
      { unfold appendFillLastChild in H1. apply bind_ok in H1 as (n & s1 & H2 & H1). apply get_fsn_ok in H2 as (-> & ->). apply bind_ok in H1 as (d0 & s1 & H2 & H1). apply get_db_ok in H2 as (-> & ->). cbn [fst snd] in H1.
        rewrite cl_num, (c_max _ Hc), zlen_app, El in H1. change (zlen [sub x2]) with 1 in H1. replace (k + 1 <=? k) with false in H1 by lia. replace (k + 1 - 1) with k in H1 by lia.
        apply bind_ok in H1 as (ch & s2 & H2 & H1). apply lift_ok in H2 as (H2 & ->).
        assert (Ech : ch = cl (map lk x2) (enc (map snd (map lk x2)))).
        { unfold GetChild in H2. replace (k <? 0) with false in H2 by lia. cbn [cl f_links] in H2. rewrite map_app, nth_error_app2 in H2 by (rewrite map_length; unfold zlen in El; lia).
          rewrite map_length in H2. replace (Z.to_nat k - length (map lk x1))%nat with O in H2 by (unfold zlen in El; lia). cbn [map nth_error] in H2.
          cbn [make_link lto sub fst] in H2. rewrite seal_nd in H2. unfold dserv_get in H2. destruct (_ && _); cbn [rbind] in H2; [|discriminate].
          unfold nd, GetDagNode in H2. cbn [f_prefix f_bytes cl] in H2. change (f_links _) with (f_links (cl (map lk x2) [])) in H2. rewrite open_cl in H2 by (apply sizes_leaves, Hs2). congruence. }
        subst ch. apply bind_ok in H1 as (nc & [n2 d2] & H3 & H1). unfold on_fsn in H3. cbn [fst snd] in H3. change (0 - 1) with (-1) in H3.
        destruct (appendRec fuel rfuel (-1) _) as [[[]|e| |] [n3 d3]] eqn:E3; try discriminate. injection H3 as <- <- <-.
        apply (rec_last _ _ _ _ _ _ ys) in E3 as (-> & P3 & C3 & S3); [|exact Hc|exact Hp|idtac]; [|lia].
        apply bind_ok in H1 as (n4 & s4 & H4 & H1). apply lift_ok in H4 as (H4 & ->).
        assert (E4 : n4 = cl (map lk x1) (enc (map snd (map lk x1 ++ [sub x2])))).
        { unfold RemoveChild in H4. cbn [cl f_file f_links f_prefix f_bytes] in H4. rewrite map_app in H4. cbn [map] in H4. replace k with (zlen (map snd (map lk x1))) in H4 at 1 by (unfold zlen in *; now rewrite map_length).
          rewrite FS_remove in H4. cbn [rbind] in H4. destruct (zlen _ <=? k) in H4; [discriminate|]. injection H4 as <-. unfold cl. f_equal; [now rewrite map_app|].
          rewrite map_app. unfold ztake, zdrop. rewrite firstn_app, map_length. unfold zlen in El. replace (Z.to_nat k - length (map lk x1))%nat with O by lia. rewrite firstn_O, app_nil_r, firstn_all2 by (rewrite map_length; lia).
          rewrite skipn_all2 by (rewrite app_length, map_length; cbn; lia). apply app_nil_r. }
        subst n4. apply bind_ok in H1 as ([] & s5 & H5 & H1). unfold set_fsn in H5. cbn [snd] in H5. injection H5 as <-.
        apply bind_ok in H1 as (fl & s5 & H5 & H1). apply lift_ok in H5 as (H5 & ->). unfold Commit in H5. cbn [cl f_file] in H5. rewrite FS_bytes in H5. cbn [rbind] in H5. injection H5 as <-.
        apply bind_ok in H1 as ([] & [n6 d6] & H6 & H1). apply cl_add in H6 as (-> & P6 & C6). change (1 =? 0) with false in H1. cbn iota in H1.
        apply add_children_done in H1 as (-> & P7 & C7); [|congruence]. split; [reflexivity|]. split; [exact P7|congruence]. }
      destruct X as (-> & P1 & C1). apply (tail_one _ _ _ _ _ _ _ []) in H as (-> & S); auto; [|unfold zlen; cbn; lia]. rewrite app_nil_r.
      rewrite <- app_assoc, kids2_app; auto. destruct x2; [now destruct Hx2|discriminate].
  Qed.

  (** ** More than fits in the direct leaves and one sub-graph of depth one *)

  Lemma cl_links L b : zlen (f_links (cl L b)) = zlen L.
  Proof. unfold cl, zlen. cbn. now rewrite map_length. Qed.
  Lemma leaves_len xs : zlen (map lk xs) = zlen xs.
  Proof. unfold zlen. now rewrite map_length. Qed.

  Lemma new_depth1 f d (r : xnode * Z) d' ys : cfg d = c -> pend d = map EvData ys -> k <= zlen ys ->
    with_new (NewFSNodeOverDag (db_builder d) TFile) (fillTrickleRec f 1) d = (Ok r, d') -> zlen (node_links (fst (fst r))) = k.
  Proof.
    intros Hc Hp Hl H. unfold with_new in H. rewrite (c_bu _ Hc), cl_new in H.
    destruct (fillTrickleRec f 1 (cl [] [], d)) as [[[]|e| |] [n1 d1]] eqn:E; try discriminate. injection H as <- <-. cbn [fst].
    destruct f as [|f]; cbn [fillTrickleRec] in E; [discriminate|]. apply bind_ok in E as ([] & [n2 d2] & E1 & E).
    change (zlen ys) with (zlen (@nil (node * Z)) + zlen ys) in Hl.
    apply (layer_part _ _ _ _ _ ys) in E1 as (y1 & y2 & -> & Hy & -> & P1 & C1 & S1); auto; [|unfold zlen; cbn; lia].
    apply bind_ok in E as ([] & [n3 d3] & E2 & E).
    assert (X : n3 = cl ([] ++ map lk y1) (enc (map snd ([] ++ map lk y1)))) by (destruct f; cbn [depth_loop] in E2; change ((1 =? -1) || (1 <? 1)) with false in E2; cbn iota in E2; apply ret_ok in E2 as (_ & E2); congruence).
    subst n3. apply cl_commit in E as (-> & ->). unfold GetDagNode. cbn [node_links]. rewrite cl_links, zlen_app, leaves_len. exact Hy.
  Qed.

  Lemma new_depth2 f d (r : xnode * Z) d' ys : cfg d = c -> pend d = map EvData ys -> k < zlen ys ->
    new_subtree f 2 d = (Ok r, d') -> k < zlen (node_links (fst (fst r))).
  Proof.
    intros Hc Hp Hl H. unfold new_subtree, with_new in H. rewrite (c_bu _ Hc), cl_new in H.
    destruct (fillTrickleRec f 2 (cl [] [], d)) as [[[]|e| |] [n1 d1]] eqn:E; try discriminate. injection H as <- <-. cbn [fst].
    destruct f as [|f]; cbn [fillTrickleRec] in E; [discriminate|]. apply bind_ok in E as ([] & [n2 d2] & E1 & E).
    apply (layer_part _ _ _ _ _ ys) in E1 as (y1 & y2 & -> & Hy & -> & P1 & C1 & S1); auto; [|unfold zlen; cbn; lia|unfold zlen in *; cbn; lia].
    change (zlen (@nil (node * Z))) with 0 in Hy. apply bind_ok in E as ([] & [n3 d3] & E2 & E).
    apply depth_loop_first in E2 as (x & e1 & e2 & m2 & _ & _ & _ & M & (F & HF & U)).
    - apply commit_longer in E. unfold GetDagNode. cbn [node_links]. rewrite E, HF, M, !zlen_app, cl_links, zlen_app, leaves_len.
      change (zlen (@nil (node * Z))) with 0. pose proof (zlen_nonneg F). match goal with |- context [zlen [?a]] => change (zlen [a]) with 1 end. lia.
    - rewrite P1. intros B. destruct y2; [|discriminate]. rewrite app_nil_r in Hl. lia.
    - right. lia.
  Qed.

  Definition child_at (r : node) (m : node) : Prop := exists A E, node_links r = A ++ make_link [] m :: E /\ zlen A = k.

  Lemma tail_more fuel L b d n' d' ys : cfg d = c -> pend d = map EvData ys -> k < zlen ys -> zlen L = k ->
    tail fuel 1 (cl L b, d) = (Ok tt, (n', d')) -> exists m, child_at (GetDagNode n') m /\ k < zlen (node_links m).
  Proof.
    intros Hc Hp Hl HL H. unfold tail in H. apply bind_ok in H as (dn & [n1 d1] & H1 & H). apply on_db_ok in H1 as (H1 & ->). apply done_ok in H1 as (P1 & C1 & B).
    assert (Hn : pend d <> []) by (rewrite Hp; destruct ys; [unfold zlen in Hl; cbn in Hl; lia|discriminate]).
    destruct dn; [contradiction|]. cbn zeta in H. change (1 + 1) with 2 in H. apply bind_ok in H as ([] & [n2 d2] & H2 & H).
    apply depth_loop_first in H2 as (x & e1 & e2 & m2 & P3 & C3 & X & M & (F & HF & U)); [|congruence|now left].
    apply (new_depth2 _ _ _ _ ys) in X; [|congruence|congruence|exact Hl]. exists (fst (fst x)). split; [|exact X].
    apply commit_longer in H. exists (f_links (cl L b)), F. unfold GetDagNode. cbn [node_links]. split; [now rewrite H, HF, M, <- app_assoc|]. now rewrite cl_links.
  Qed.

  Lemma append_more fuel rfuel xs d r base' d' ys : cfg d = c -> small xs -> pend d = map EvData ys -> zlen xs <= k -> 2 * k < zlen xs + zlen ys ->
    Append fuel rfuel (nd (kids2 xs)) d = (Ok r, base', d') -> exists m, child_at r m /\ k < zlen (node_links m).
  Proof.
    intros Hc Hs Hp Hx Hl H. apply append_inv_cl in H as (n' & H & ->); [|exact Hc|apply sizes_two, Hs].
    apply body_split in H; [|exact Hc]. cbn zeta in H. rewrite kids2_few in H by exact Hx. rewrite leaves_len in H.
    destruct (zlen xs <? k) eqn:Ex.
    - destruct H as (n1 & d1 & d2 & H1 & C2 & P2 & H).
      apply (layer_part _ _ _ _ _ ys) in H1 as (y1 & y2 & -> & Hy1 & -> & P1 & C1 & S1); [|exact Hc|exact Hp|rewrite leaves_len; lia|rewrite leaves_len; lia].
      rewrite leaves_len in Hy1. assert (Hl2 : 2 * k < zlen xs + (zlen y1 + zlen y2)) by (rewrite <- zlen_app; exact Hl). clear Hl.
      destruct H as [[B _]|[_ H]]; [rewrite P1 in B; destruct y2; [unfold zlen in *; cbn in *; lia|discriminate]|].
      rewrite <- map_app in H. assert (E : zlen (map lk (xs ++ y1)) = k) by (rewrite leaves_len, zlen_app; exact Hy1).
      apply bind_ok in H as ([] & [n3 d3] & H3 & H). apply fill_last_none in H3 as (-> & ->); [|congruence|lia].
      apply (tail_more _ _ _ _ _ _ y2) in H; try congruence. lia.
    - replace (zlen xs - k) with 0 in H by lia. change (0 / 4) with 0 in H. change (0 + 1) with 1 in H.
      apply bind_ok in H as ([] & [n3 d3] & H3 & H). apply fill_last_none in H3 as (-> & ->); [|exact Hc|rewrite leaves_len; lia].
      apply (tail_more _ _ _ _ _ _ ys) in H; auto; [lia|rewrite leaves_len; lia].
  Qed.

  Lemma layout_more fuel d r d' xs : cfg d = c -> pend d = map EvData xs -> 2 * k < zlen xs -> Layout fuel d = (Ok r, d') ->
    exists m, child_at r m /\ zlen (node_links m) = k.
  Proof.
    intros Hc Hp Hl H. unfold Layout in H. apply bind_ok in H as (x & d1 & H1 & H). apply bind_ok in H as ([] & d2 & H2 & H). unfold ret in H. injection H as <- <-.
    assert (W : Forall unnamed (node_links (fst (fst x))) /\ exists m, child_at (fst (fst x)) m /\ zlen (node_links m) = k).
    { unfold new_subtree, with_new in H1. rewrite (c_bu _ Hc), cl_new in H1.
      destruct (fillTrickleRec fuel (-1) (cl [] [], d)) as [[[]|e| |] [n1 d1']] eqn:E; try discriminate. injection H1 as <- <-. cbn [fst].
      destruct fuel as [|f]; cbn [fillTrickleRec] in E; [discriminate|]. apply bind_ok in E as ([] & [m1 e1] & E1 & E).
      apply (layer_part _ _ _ _ _ xs) in E1 as (y1 & y2 & -> & Hy & -> & P1 & C1 & S1); auto; [|unfold zlen; cbn; lia|unfold zlen in *; cbn; lia].
      change (zlen (@nil (node * Z))) with 0 in Hy. assert (Hl2 : 2 * k < zlen y1 + zlen y2) by (rewrite <- zlen_app; exact Hl). clear Hl.
      apply bind_ok in E as ([] & [m2 e2] & E2 & E). apply depth_loop_first in E2 as (v & f1 & f2 & m3 & P3 & C3 & X & M & (F & HF & U));
        [|rewrite P1; intros B; destruct y2; [unfold zlen in *; cbn in *; lia|discriminate]|now left].
      apply (new_depth1 _ _ _ _ y2) in X; [|congruence|congruence|lia]. apply commit_longer in E. split.
      { unfold GetDagNode. cbn [node_links]. rewrite E, HF, M. apply Forall_app. split; [apply Forall_app; split; [apply links_unnamed|repeat constructor]|exact U]. }
      exists (fst (fst v)). split; [|exact X]. eexists (f_links _), F. unfold GetDagNode. cbn [node_links]. split; [rewrite E, HF, M, <- app_assoc; reflexivity|].
      rewrite cl_links, zlen_app, leaves_len. exact Hy. }
    destruct W as (U & W). rewrite seal_unnamed by exact U. exact W.
  Qed.

  Lemma child_same r m1 m2 : child_at r m1 -> child_at r m2 -> zlen (node_links m1) = zlen (node_links m2).
  Proof.
    intros (A & E & H1 & L1) (B & F & H2 & L2). rewrite H1 in H2. assert (L : length A = length B) by (unfold zlen in *; lia).
    apply app_inj_len in H2 as [_ H2]; [|exact L]. injection H2 as _ H2 _.
    assert (X : forall m, length (node_links (seal m)) = length (node_links m)) by (intros [p b|p b ls]; [reflexivity|]; cbn [seal node_links]; apply Permutation_length, lsort_perm).
    unfold zlen. now rewrite <- (X m1), H2, X.
  Qed.
End same.

(** ** Statements about the entry points *)

Lemma app_same f1 f2 rf f3 dbp fi1 fi2 fi3 a b w1 w2 w3 base base' r r' w1' w2' w3' :
  1 <= pr_maxlinks dbp -> zlen a + zlen b <= 2 * pr_maxlinks dbp ->
  trickle_import f1 dbp fi1 (map EvData a) w1 = (Ok base, w1') ->
  trickle_append f2 rf dbp fi2 (map EvData b) base w2 = (Ok r, base', w2') ->
  trickle_import f3 dbp fi3 (map EvData (a ++ b)) w3 = (Ok r', w3') -> r = r'.
Proof.
  intros Hk Hl H1 H2 H3.
  apply build_inv in H1 as [(e & _ & H & _)|(d1 & d1' & _ & L1 & -> & P1 & _ & C1 & _)]; [discriminate|].
  apply append_inv in H2 as [(e & _ & H & _)|(d2 & d2' & _ & L2 & -> & P2 & _ & C2 & _)]; [discriminate|].
  apply build_inv in H3 as [(e & _ & H & _)|(d3 & d3' & _ & L3 & -> & P3 & _ & C3 & _)]; [discriminate|].
  pose proof (zlen_nonneg b).
  apply (layout_two _ _ _ _ Hk _ _ _ _ a C1 P1) in L1 as (-> & S1); [|lia].
  apply (layout_two _ _ _ _ Hk _ _ _ _ (a ++ b) C3 P3) in L3 as (-> & S3); [|rewrite zlen_app; lia].
  exact (append_two _ _ _ _ Hk _ _ _ _ _ _ _ _ C2 S1 P2 Hl L2).
Qed.

Lemma app_differs f1 f2 rf f3 dbp fi1 fi2 fi3 a b w1 w2 w3 base base' r r' w1' w2' w3' :
  1 <= pr_maxlinks dbp -> zlen a <= pr_maxlinks dbp -> 2 * pr_maxlinks dbp < zlen a + zlen b ->
  trickle_import f1 dbp fi1 (map EvData a) w1 = (Ok base, w1') ->
  trickle_append f2 rf dbp fi2 (map EvData b) base w2 = (Ok r, base', w2') ->
  trickle_import f3 dbp fi3 (map EvData (a ++ b)) w3 = (Ok r', w3') -> r <> r'.
Proof.
  intros Hk Ha Hl H1 H2 H3 <-.
  apply build_inv in H1 as [(e & _ & H & _)|(d1 & d1' & _ & L1 & -> & P1 & _ & C1 & _)]; [discriminate|].
  apply append_inv in H2 as [(e & _ & H & _)|(d2 & d2' & _ & L2 & -> & P2 & _ & C2 & _)]; [discriminate|].
  apply build_inv in H3 as [(e & _ & H & _)|(d3 & d3' & _ & L3 & -> & P3 & _ & C3 & _)]; [discriminate|].
  apply (layout_two _ _ _ _ Hk _ _ _ _ a C1 P1) in L1 as (-> & S1); [|lia].
  apply (layout_more _ _ _ _ Hk _ _ _ _ (a ++ b) C3 P3) in L3 as (m1 & X1 & E1); [|rewrite zlen_app; lia].
  apply (append_more _ _ _ _ Hk _ _ _ _ _ _ _ _ C2 S1 P2 Ha Hl) in L2 as (m2 & X2 & E2).
  pose proof (child_same _ _ _ _ X1 X2). lia.
Qed.

Definition runs_ok (dbp : params) (a b : list bytes) (w : world) : bool :=
  match trickle_import 20 dbp false (map EvData a) w with
  | (Ok base, w1) =>
      match trickle_append 20 20 dbp false (map EvData b) base w1, trickle_import 20 dbp false (map EvData (a ++ b)) w with
      | (Ok r, base', _), (Ok _, _) => node_eqb r base'
      | _, _ => false
      end
  | _ => false
  end.
Lemma runs_differ dbp a b w : 1 <= pr_maxlinks dbp -> zlen a <= pr_maxlinks dbp -> 2 * pr_maxlinks dbp < zlen a + zlen b -> runs_ok dbp a b w = true ->
  exists base w1 r w2 r' w3,
  trickle_import 20 dbp false (map EvData a) w = (Ok base, w1) /\
  trickle_append 20 20 dbp false (map EvData b) base w1 = (Ok r, r, w2) /\
  trickle_import 20 dbp false (map EvData (a ++ b)) w = (Ok r', w3) /\ r <> r'.
Proof.
  intros Hk Ha Hl H. unfold runs_ok in H. destruct (trickle_import 20 dbp false (map EvData a) w) as [[base| | |] w1] eqn:E1; try discriminate.
  destruct (trickle_append 20 20 dbp false (map EvData b) base w1) as [[[r| | |] b'] w2] eqn:E2; try discriminate.
  destruct (trickle_import 20 dbp false (map EvData (a ++ b)) w) as [[r'| | |] w3] eqn:E3; try discriminate.
  apply node_eqb_eq in H. subst b'. exists base, w1, r, w2, r', w3. split; [reflexivity|]. split; [exact E2|]. split; [reflexivity|].
  exact (app_differs _ _ _ _ _ _ _ _ _ _ _ _ _ _ _ _ _ _ _ _ Hk Ha Hl E1 E2 E3).
Qed.

(** One chunk and four more with two links per node. *)
Lemma app_refuted : exists dbp a b w base w1 r w2 r' w3,
  1 <= pr_maxlinks dbp /\
  trickle_import 20 dbp false (map EvData a) w = (Ok base, w1) /\
  trickle_append 20 20 dbp false (map EvData b) base w1 = (Ok r, r, w2) /\
  trickle_import 20 dbp false (map EvData (a ++ b)) w = (Ok r', w3) /\ r <> r'.
Proof.
  pose proof (runs_differ (limit 2) [[x61]] [[x62]; [x63]; [x64]; [x65]] astore) as R.
  specialize (R ltac:(vm_compute; discriminate) ltac:(vm_compute; discriminate) ltac:(vm_compute; reflexivity) ltac:(vm_compute; reflexivity)).
  destruct R as (base & w1 & r & w2 & r' & w3 & R).
  exists (limit 2), [[x61]], [[x62]; [x63]; [x64]; [x65]], astore, base, w1, r, w2, r', w3. split; [vm_compute; discriminate|exact R].
Qed.
