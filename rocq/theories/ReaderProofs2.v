(** The reader as a file: statements used in the property file. *)
From Verif Require Import Base Pb PbProofs FSNode FSNodeProofs Dag DagProofs SpecFile Reader SpecReader ReaderRun ReaderProofs.

(** ** Opening *)

Lemma reader_at_new content root size : tree_bytes root content -> reader_at content 0 (mkReader root size 0 [] None).
Proof.
  intros H. split; cbn [r_off r_root r_stack r_data]; auto; try lia.
  - exists content. split; [now constructor|reflexivity].
  - constructor.
  - intros b Hb. discriminate.
Qed.

(** ** Seek *)

Lemma seek_start_spec w p r content : file_content (r_root r) content -> zlen content < 9223372036854775808 -> 0 <= p -> p <> r_off r ->
  let '(n, e, r') := seek_start w p r in
  r_root r' = r_root r /\ r_size r' = r_size r /\
  match e with
  | Ok _ => n = p /\ reader_at content p r'
  | Err e => e = EFetch /\ ~ below_available w (r_root r)
  | Panic => False
  | Fuel => False
  end.
Proof.
  intros (cs & Hfd & ->) Hlen Hp Hne. unfold seek_start.
  replace (p <? 0) with false by lia. replace (p =? r_off r) with false by lia.
  destruct (p =? 0) eqn:E0.
  - split; [reflexivity|]. split; [reflexivity|]. assert (p = 0) as -> by lia. split; [reflexivity|].
    apply reader_at_new. now apply file_dag_tree.
  - pose proof (seek_walk_spec w (r_root r) (walk_fuel (r_root r) []) [] p (r_root r) cs []) as S.
    destruct (seek_walk (walk_fuel (r_root r) []) w (r_root r) [] p None) as [[x st] d].
    specialize (S ltac:(unfold walk_fuel; lia) ltac:(constructor) ltac:(left; auto) Hfd ltac:(lia) Hp ltac:(constructor) ltac:(congruence)).
    destruct x as [u|e| |]; cbn [r_root r_size]; auto.
    2:{ destruct S as (S1 & S2 & _). auto. }
    destruct S as (S1 & S2 & b2 & S3 & S4). rewrite app_nil_r in S4.
    split; [reflexivity|]. split; [reflexivity|]. split; [reflexivity|]. split; cbn [r_off r_root r_stack r_data]; auto.
    exists b2. auto.
Qed.

Lemma i64_small z : -9223372036854775808 <= z < 9223372036854775808 -> i64 z = z.
Proof. intros. unfold i64, two63, two64. rewrite Z.mod_small; lia. Qed.
Lemma i64_over z : 9223372036854775808 <= z < 18446744073709551616 -> i64 z < 0.
Proof. intros. unfold i64, two63, two64. rewrite <- (Z.mod_unique (z + 9223372036854775808) 18446744073709551616 1 (z - 9223372036854775808)); lia. Qed.

Lemma seek_at w content pos r p : file_content (r_root r) content -> zlen content < 9223372036854775808 -> reader_at content pos r -> 0 <= p ->
  let '(n, e, r') := seek_start w p r in
  r_root r' = r_root r /\ r_size r' = r_size r /\
  match e with
  | Ok _ => n = p /\ reader_at content p r'
  | Err e => e = EFetch /\ ~ below_available w (r_root r)
  | Panic => False
  | Fuel => False
  end.
Proof.
  intros Hf Hl Hr Hp. destruct (Z.eq_dec p (r_off r)) as [E|E]; [|now apply seek_start_spec].
  unfold seek_start. rewrite <- E. rewrite Z.eqb_refl. replace (p <? 0) with false by lia.
  split; [reflexivity|]. split; [reflexivity|]. split; [reflexivity|]. pose proof (ra_off _ _ _ Hr). congruence.
Qed.

(** ** One call *)

Lemma obs_ok : obs_err (Ok tt) = Some None. Proof. reflexivity. Qed.

Lemma firstn_read_at content pos m : m = firstn (length m) (skipn (Z.to_nat pos) content) -> m = read_at content pos (length m).
Proof. exact (fun H => H). Qed.

Lemma good_writer_ok rcv x : snd (good_writer rcv x) = true \/ (fst (good_writer rcv x) < length x)%nat -> False.
Proof. cbn. intros [H|H]; [discriminate|lia]. Qed.

Lemma read_step w content pos k r : reader_at content pos r ->
  exists o r' pos', reader_step w (OpRead k) r = Some (o, r') /\ reader_at content pos' r' /\ r_root r' = r_root r /\ r_size r' = r_size r /\
    (file_step content pos (OpRead k) o pos' \/ (~ below_available w (r_root r) /\ faulty_step content pos (OpRead k) o pos')).
Proof.
  intros Hr. pose proof (CtxReadFull_spec w content pos k r Hr) as S. cbn [reader_step].
  destruct (CtxReadFull w k r) as [[m e] r']. destruct S as (S1 & S2 & S3 & S4 & S5 & S6).
  assert (Hm : forall n, (length m <= n)%nat -> (length m = n \/ m = skipn (Z.to_nat pos) content) -> read_at content pos n = m).
  { intros n Hn [<-|E]; [symmetry; exact S4|]. unfold read_at. rewrite <- E. now apply firstn_all2. }
  destruct e as [u|e| |]; cbn [obs_err]; try contradiction.
  - eexists _, r', _. split; [reflexivity|]. split; [exact S3|]. split; [assumption|]. split; [assumption|]. left.
    rewrite <- (Hm k S5 (or_introl S6)). constructor.
    + now left.
    + rewrite (Hm k S5 (or_introl S6)). unfold zlen. lia.
    + discriminate.
  - eexists _, r', _. split; [reflexivity|]. split; [exact S3|]. split; [assumption|]. split; [assumption|].
    destruct (match e with EEOF => true | _ => false end) eqn:Ee.
    + destruct e; try discriminate. destruct S6 as [S6 S7]. left. rewrite <- (Hm k S5 (or_intror S6)) at 1 2 3. constructor.
      * now right.
      * auto.
      * intros _. rewrite (Hm k S5 (or_intror S6)). unfold zlen. lia.
    + assert (S7 : e = EFetch /\ ~ below_available w (r_root r)) by (destruct e; try discriminate; split; apply S6).
      destruct S7 as [-> S7]. right. split; [assumption|]. rewrite <- (Hm (length m) (le_n _) (or_introl eq_refl)).
      now constructor.
Qed.

Lemma copy_step w content pos r : reader_at content pos r ->
  exists o r' pos', reader_step w OpCopy r = Some (o, r') /\ reader_at content pos' r' /\ r_root r' = r_root r /\ r_size r' = r_size r /\
    (file_step content pos OpCopy o pos' \/ (~ below_available w (r_root r) /\ faulty_step content pos OpCopy o pos')).
Proof.
  intros Hr. pose proof (WriteTo_spec w good_writer content pos r Hr) as S. cbn [reader_step].
  destruct (WriteTo w good_writer r) as [[m e] r']. destruct S as (S1 & S2 & S3 & S4 & S5).
  assert (Hra : r_off r' = pos + zlen m -> reader_at content (pos + zlen m) r').
  { intros E. destruct r'. cbn in *. now rewrite E. }
  destruct e as [u|e| |]; cbn [obs_err]; try contradiction.
  - destruct S5 as [S5 S6]. eexists _, r', _. split; [reflexivity|]. split; [exact (Hra S6)|]. split; [assumption|]. split; [assumption|].
    left. rewrite S5. constructor.
  - destruct S5 as [(-> & S5 & S6 & _)|(_ & rcv & x & S5)]; [|destruct (good_writer_ok _ _ S5)].
    eexists _, r', _. split; [reflexivity|]. split; [exact (Hra S6)|]. split; [assumption|]. split; [assumption|].
    right. split; [assumption|]. rewrite (firstn_read_at _ _ _ S4). apply ft_copy.
Qed.

Lemma seek_step w content pos o wh r : file_content (r_root r) content -> zlen content < 9223372036854775808 ->
  r_size r = zlen content -> reader_at content pos r -> below_available w (r_root r) ->
  pos < 9223372036854775808 -> -9223372036854775808 <= o < 9223372036854775808 ->
  exists ob r' pos', reader_step w (OpSeek o wh) r = Some (ob, r') /\ reader_at content pos' r' /\ r_root r' = r_root r /\ r_size r' = r_size r /\
    pos' < 9223372036854775808 /\ file_step content pos (OpSeek o wh) ob pos'.
Proof.
  intros Hf Hl Hs Hr Hb Hpos Ho. cbn [reader_step]. pose proof (ra_off _ _ _ Hr) as Eo. pose proof (ra_pos _ _ _ Hr) as Hp0.
  assert (G : forall t p, seek_target content pos o wh = Some t ->
     (0 <= t < 9223372036854775808 /\ p = t \/ ~ 0 <= t < 9223372036854775808 /\ p < 0) ->
     exists ob r' pos', (let '(n, e, r') := seek_start w p r in match obs_err e with Some e => Some (([], n, e), r') | None => None end) = Some (ob, r') /\
       reader_at content pos' r' /\ r_root r' = r_root r /\ r_size r' = r_size r /\
       pos' < 9223372036854775808 /\ file_step content pos (OpSeek o wh) ob pos').
  { intros t p Ht [[H1 ->]|[H1 H2]].
    - pose proof (seek_at w content pos r t Hf Hl Hr ltac:(lia)) as S. destruct (seek_start w t r) as [[n e] r'].
      destruct S as (S1 & S2 & S3). destruct e as [u|e| |]; cbn [obs_err]; try contradiction.
      + destruct S3 as [-> S3]. eexists _, r', t. split; [reflexivity|]. repeat (split; [assumption|]). split; [lia|].
        now apply fs_seek.
      + destruct S3 as [_ S3]. contradiction.
    - unfold seek_start. replace (p <? 0) with true by lia. cbn [obs_err]. eexists _, r, pos. split; [reflexivity|].
      split; [assumption|]. split; [reflexivity|]. split; [reflexivity|]. split; [lia|]. rewrite Eo.
      eapply fs_seek_bad; eassumption. }
  unfold Seek, seek_target in *. pose proof (zlen_nonneg content) as Hn. destruct (wh =? 0) eqn:E0.
  - apply (G o o eq_refl). destruct (Z_lt_dec o 0); [right|left]; lia.
  - destruct (wh =? 1) eqn:E1.
    + destruct (o =? 0) eqn:E2.
      * assert (o = 0) as -> by lia. cbn [obs_err]. eexists _, r, pos. split; [reflexivity|].
        split; [assumption|]. split; [reflexivity|]. split; [reflexivity|]. split; [lia|]. rewrite Eo. apply fs_seek; [|lia].
        unfold seek_target. rewrite E0, E1. f_equal. lia.
      * apply (G (pos + o) (i64 (r_off r + o)) eq_refl). rewrite Eo.
        destruct (Z_lt_dec (pos + o) 9223372036854775808) as [L|L].
        -- rewrite i64_small by lia. destruct (Z_lt_dec (pos + o) 0); [right|left]; lia.
        -- right. split; [lia|]. apply i64_over. lia.
    + destruct (wh =? 2) eqn:E2.
      * apply (G (zlen content + o) (i64 (i64 (Size r) + o)) eq_refl). unfold Size. rewrite Hs. rewrite (i64_small (zlen content)) by lia.
        destruct (Z_lt_dec (zlen content + o) 9223372036854775808) as [L|L].
        -- rewrite i64_small by lia. destruct (Z_lt_dec (zlen content + o) 0); [right|left]; lia.
        -- right. split; [lia|]. apply i64_over. lia.
      * cbn [obs_err]. eexists _, r, pos. split; [reflexivity|]. split; [assumption|]. split; [reflexivity|]. split; [reflexivity|].
        split; [lia|]. apply fs_seek_whence. unfold seek_target. now rewrite E0, E1, E2.
Qed.

(** ** Sequences of calls *)

Lemma faulty_of content pos op o pos' : file_step content pos op o pos' -> faulty_step content pos op o pos'.
Proof. apply ft_ok. Qed.

Lemma run_faulty content ops : forall r pos, reader_at content pos r -> Forall (fun x => no_seek (snd x)) ops ->
  exists t r' pos', reader_run ops r = Some (t, r') /\ map fst t = map snd ops /\ faulty_run content pos t pos' /\ reader_at content pos' r'.
Proof.
  induction ops as [|[w op] ops IH]; intros r pos Hr HF; cbn [reader_run].
  - eexists _, _, _. split; [reflexivity|]. split; [reflexivity|]. split; [constructor|exact Hr].
  - inversion HF; subst. cbn in H1.
    assert (S : exists o r' pos', reader_step w op r = Some (o, r') /\ reader_at content pos' r' /\ faulty_step content pos op o pos').
    { destruct op; cbn in H1.
      - destruct (read_step w content pos k r Hr) as (o & r' & pos' & S1 & S2 & _ & _ & [S|[_ S]]); exists o, r', pos'; auto using ft_ok.
      - destruct H1.
      - destruct (copy_step w content pos r Hr) as (o & r' & pos' & S1 & S2 & _ & _ & [S|[_ S]]); exists o, r', pos'; auto using ft_ok. }
    destruct S as (o & r1 & pos1 & S1 & S2 & S3). rewrite S1.
    destruct (IH r1 pos1 S2 H2) as (t & r' & pos' & I1 & I2 & I3 & I4). rewrite I1.
    eexists _, _, _. split; [reflexivity|]. split; [cbn; now rewrite I2|]. split; [econstructor; eassumption|assumption].
Qed.

Lemma read_at_len content pos k : zlen (read_at content pos k) <= Z.max 0 (zlen content - pos).
Proof. unfold read_at, zlen. rewrite firstn_length, skipn_length. lia. Qed.

Lemma step_pos content pos op o pos' : zlen content < 9223372036854775808 -> 0 <= pos < 9223372036854775808 ->
  no_seek op -> file_step content pos op o pos' -> pos' < 9223372036854775808.
Proof.
  intros Hl Hp Hn H. destruct H; try contradiction.
  - pose proof (read_at_len content pos k). lia.
  - pose proof (zlen_nonneg content). unfold zlen in *. rewrite skipn_length. lia.
Qed.

Lemma run_file w content ops : forall r pos, file_content (r_root r) content -> zlen content < 9223372036854775808 ->
  r_size r = zlen content -> below_available w (r_root r) -> reader_at content pos r -> pos < 9223372036854775808 -> Forall op_ok ops ->
  exists t r' pos', reader_run (map (fun op => (w, op)) ops) r = Some (t, r') /\ map fst t = ops /\ file_run content pos t pos'.
Proof.
  induction ops as [|op ops IH]; intros r pos Hf Hl Hs Hb Hr Hp HF; cbn [map reader_run].
  - eexists _, _, _. split; [reflexivity|]. split; [reflexivity|constructor].
  - inversion HF; subst. pose proof (ra_pos _ _ _ Hr) as Hp0.
    assert (S : exists o r' pos', reader_step w op r = Some (o, r') /\ reader_at content pos' r' /\ r_root r' = r_root r /\ r_size r' = r_size r /\
       pos' < 9223372036854775808 /\ file_step content pos op o pos').
    { destruct op; cbn in H1.
      - destruct (read_step w content pos k r Hr) as (o & r' & pos' & S1 & S2 & S3 & S4 & [S|[S _]]); [|contradiction].
        exists o, r', pos'. repeat (split; [assumption|]). split; [|assumption]. eapply step_pos; try exact S; cbn; auto; lia.
      - apply seek_step; auto.
      - destruct (copy_step w content pos r Hr) as (o & r' & pos' & S1 & S2 & S3 & S4 & [S|[S _]]); [|contradiction].
        exists o, r', pos'. repeat (split; [assumption|]). split; [|assumption]. eapply step_pos; try exact S; cbn; auto; lia. }
    destruct S as (o & r1 & pos1 & S1 & S2 & S3 & S4 & S5 & S6). rewrite S1.
    destruct (IH r1 pos1) as (t & r' & pos' & I1 & I2 & I3); try rewrite S3; try rewrite S4; auto. rewrite I1.
    eexists _, _, _. split; [reflexivity|]. split; [cbn; now rewrite I2|]. econstructor; eassumption.
Qed.

(** ** NewDagReader *)



Lemma FSNodeFromBytes_cases b : (exists fs, FSNodeFromBytes b = Ok fs) \/ (exists e, FSNodeFromBytes b = Err e).
Proof. unfold FSNodeFromBytes. destruct (unmarshal_total b) as [[d H]|[e H]]; rewrite H; eauto. Qed.

Lemma opens_new w n x : opens w n x -> NewDagReader w n = rmap (fun y => mkReader (fst y) (snd y) 0 [] None) x.
Proof.
  intros H. induction H; cbn [NewDagReader].
  - unfold mod64, u64, two64. reflexivity.
  - rewrite H. cbn [rbind]. replace ((getType fs =? TFile) || (getType fs =? TRaw)) with true by (destruct H0 as [-> | ->]; reflexivity).
    unfold FileSize, size. cbn zeta. destruct H0 as [-> | ->]; reflexivity.
  - rewrite H. cbn [rbind]. destruct H0 as [-> | ->]; reflexivity.
  - rewrite H. cbn [rbind]. rewrite H0. reflexivity.
  - rewrite H. cbn [rbind]. cbn [In] in H0.
    destruct (getType fs =? TFile) eqn:E1; [apply Z.eqb_eq in E1; exfalso; apply H0; rewrite E1; auto 10|].
    destruct (getType fs =? TRaw) eqn:E2; [apply Z.eqb_eq in E2; exfalso; apply H0; rewrite E2; auto 10|].
    destruct (getType fs =? TDirectory) eqn:E3; [apply Z.eqb_eq in E3; exfalso; apply H0; rewrite E3; auto 10|].
    destruct (getType fs =? THAMTShard) eqn:E4; [apply Z.eqb_eq in E4; exfalso; apply H0; rewrite E4; auto 10|].
    destruct (getType fs =? TMetadata) eqn:E5; [apply Z.eqb_eq in E5; exfalso; apply H0; rewrite E5; auto 10|].
    destruct (getType fs =? TSymlink) eqn:E6; [apply Z.eqb_eq in E6; exfalso; apply H0; rewrite E6; auto 10|]. reflexivity.
  - rewrite H. reflexivity.
  - rewrite H. cbn [rbind]. rewrite H0. reflexivity.
  - rewrite H. cbn [rbind]. rewrite H0. cbn [Z.eqb TFile TRaw TDirectory THAMTShard TMetadata Pos.eqb orb].
    unfold dserv_get in *. destruct (stored w (lto l) && w_getok w (lto l)); [congruence|reflexivity].
  - rewrite H. cbn [rbind]. rewrite H0. cbn [Z.eqb TFile TRaw TDirectory THAMTShard TMetadata Pos.eqb orb].
    rewrite H1, H2. reflexivity.
  - rewrite H. cbn [rbind]. rewrite H0. cbn [Z.eqb TFile TRaw TDirectory THAMTShard TMetadata Pos.eqb orb].
    rewrite H1. cbn [rbind]. rewrite H2 in *. exact IHopens.
Qed.

Lemma opens_total w n : exists x, opens w n x.
Proof.
  induction n as [n IH] using node_ind'. destruct n as [p d|p b ls]; [eexists; constructor|].
  destruct (FSNodeFromBytes_cases b) as [[fs E]|[e E]]; [|eexists; eapply op_undecodable; eassumption].
  destruct (in_dec Z.eq_dec (getType fs) [TFile; TRaw; TDirectory; THAMTShard; TSymlink; TMetadata]) as [Hi|Hi];
    [|eexists; eapply op_other; eassumption].
  cbn [In] in Hi. destruct Hi as [Hi|[Hi|[Hi|[Hi|[Hi|[Hi|[]]]]]]]; symmetry in Hi.
  - eexists; eapply op_file; eauto.
  - eexists; eapply op_file; eauto.
  - eexists; eapply op_dir; eauto.
  - eexists; eapply op_dir; eauto.
  - eexists; eapply op_symlink; eauto.
  - destruct ls as [|l ls]; [eexists; eapply op_meta_empty; eauto|].
    destruct (stored w (lto l) && w_getok w (lto l)) eqn:Eg.
    + assert (Hg : dserv_get w (lto l) = Ok (lto l)) by (unfold dserv_get; now rewrite Eg).
      destruct (lto l) as [q d|q c ms] eqn:El.
      * eexists. eapply op_meta_raw; eauto. rewrite El. exact Hg.
      * destruct (IH l (or_introl eq_refl)) as [x Hx]. exists x. eapply op_meta; eauto. rewrite El. exact Hg.
    + eexists. eapply op_meta_missing; eauto. unfold dserv_get. rewrite Eg. discriminate.
Qed.

Lemma open_exact w n :
  (forall m s, opens w n (Ok (m, s)) <-> exists r, NewDagReader w n = Ok r /\ r_root r = m /\ Size r = s /\ r_off r = 0) /\
  (forall e, opens w n (Err e) <-> NewDagReader w n = Err e) /\
  NewDagReader w n <> Panic /\ NewDagReader w n <> Fuel.
Proof.
  destruct (opens_total w n) as [x Hx]. pose proof (opens_new _ _ _ Hx) as E.
  assert (D : forall y, opens w n y -> rmap (fun y => mkReader (fst y) (snd y) 0 [] None) y = rmap (fun y => mkReader (fst y) (snd y) 0 [] None) x).
  { intros y Hy. rewrite <- E. symmetry. now apply opens_new. }
  assert (X : (exists m s, x = Ok (m, s)) \/ exists e, x = Err e).
  { clear - Hx. induction Hx; eauto. }
  destruct X as [(m0 & s0 & ->)|(e0 & ->)]; cbn in E.
  - split; [|split; [|split; rewrite E; discriminate]].
    + intros m s. split.
      * intros H. specialize (D _ H). cbn in D. injection D as -> ->. eexists. split; [exact E|]. auto.
      * intros (r & H & <- & <- & _). rewrite E in H. injection H as <-. exact Hx.
    + intros e. split; [|rewrite E; discriminate]. intros H. specialize (D _ H). discriminate.
  - split; [|split; [|split; rewrite E; discriminate]].
    + intros m s. split.
      * intros H. specialize (D _ H). discriminate.
      * intros (r & H & _). rewrite E in H. discriminate.
    + intros e. rewrite E. split.
      * intros H. specialize (D _ H). cbn in D. congruence.
      * intros H. injection H as <-. exact Hx.
Qed.

Lemma new_reader_shape w n r : NewDagReader w n = Ok r -> r_off r = 0 /\ r_stack r = [] /\ r_data r = None.
Proof.
  destruct (opens_total w n) as [x Hx]. rewrite (opens_new _ _ _ Hx). destruct x; cbn; try discriminate. intros H. injection H as <-. auto.
Qed.

Lemma new_reader_at w n r content : NewDagReader w n = Ok r -> tree_bytes (r_root r) content -> reader_at content 0 r.
Proof.
  intros H Ht. destruct (new_reader_shape _ _ _ H) as (H1 & H2 & H3). destruct r as [root size off st d]. cbn in *. subst.
  now apply reader_at_new.
Qed.

Lemma new_file w root content : file_content root content -> zlen content < 18446744073709551616 ->
  NewDagReader w root = Ok (mkReader root (zlen content) 0 [] None).
Proof.
  intros (cs & H & ->) Hl. pose proof (zlen_nonneg (concat cs)) as Hn.
  destruct H as [p d|p b fs Hd Ht Hb Hs|p b fs ls css Hls Hu Hd Ht Hda HF Hb Hs]; cbn [NewDagReader].
  - cbn [concat] in *. rewrite app_nil_r in *. unfold u64, two64. rewrite Z.mod_small by lia. reflexivity.
  - rewrite Hd. cbn [rbind concat] in *. rewrite app_nil_r in *.
    replace ((getType fs =? TFile) || (getType fs =? TRaw)) with true by (destruct Ht as [-> | ->]; reflexivity).
    unfold FileSize, size, getFilesize. rewrite Hs. rewrite mod64_exact by lia. destruct Ht as [-> | ->]; reflexivity.
  - rewrite Hd. cbn [rbind].
    replace ((getType fs =? TFile) || (getType fs =? TRaw)) with true by (destruct Ht as [-> | ->]; reflexivity).
    unfold FileSize, size, getFilesize. rewrite Hs. rewrite mod64_exact by lia. destruct Ht as [-> | ->]; reflexivity.
Qed.

(** ** Statements *)

Lemma run_reads w content ops : forall r pos, below_available w (r_root r) -> reader_at content pos r -> Forall no_seek ops ->
  exists t r' pos', reader_run (map (fun op => (w, op)) ops) r = Some (t, r') /\ map fst t = ops /\ file_run content pos t pos'.
Proof.
  induction ops as [|op ops IH]; intros r pos Hb Hr HF; cbn [map reader_run].
  - eexists _, _, _. split; [reflexivity|]. split; [reflexivity|constructor].
  - inversion HF; subst.
    assert (S : exists o r' pos', reader_step w op r = Some (o, r') /\ reader_at content pos' r' /\ r_root r' = r_root r /\ file_step content pos op o pos').
    { destruct op; cbn in H1.
      - destruct (read_step w content pos k r Hr) as (o & r' & pos' & S1 & S2 & S3 & S4 & [S|[S _]]); [|contradiction]. eauto 8.
      - destruct H1.
      - destruct (copy_step w content pos r Hr) as (o & r' & pos' & S1 & S2 & S3 & S4 & [S|[S _]]); [|contradiction]. eauto 8. }
    destruct S as (o & r1 & pos1 & S1 & S2 & S3 & S6). rewrite S1.
    destruct (IH r1 pos1) as (t & r' & pos' & I1 & I2 & I3); try rewrite S3; auto. rewrite I1.
    eexists _, _, _. split; [reflexivity|]. split; [cbn; now rewrite I2|]. econstructor; eassumption.
Qed.

Lemma open_reads w0 w root r content ops : NewDagReader w0 root = Ok r -> tree_bytes (r_root r) content ->
  below_available w (r_root r) -> Forall no_seek ops ->
  exists t r' pos', reader_run (map (fun op => (w, op)) ops) r = Some (t, r') /\ map fst t = ops /\ file_run content 0 t pos'.
Proof. intros H Ht Hb HF. apply run_reads; auto. eapply new_reader_at; eassumption. Qed.

Lemma open_reads_faulty w0 root r content ops : NewDagReader w0 root = Ok r -> tree_bytes (r_root r) content ->
  Forall (fun x => no_seek (snd x)) ops ->
  exists t r' pos', reader_run ops r = Some (t, r') /\ map fst t = map snd ops /\ faulty_run content 0 t pos'.
Proof.
  intros H Ht HF. destruct (run_faulty content ops r 0) as (t & r' & pos' & H1 & H2 & H3 & _); eauto 6.
  eapply new_reader_at; eassumption.
Qed.

Lemma open_file w root content ops : file_content root content -> zlen content < 9223372036854775808 ->
  below_available w root -> Forall op_ok ops ->
  exists r t r' pos', NewDagReader w root = Ok r /\ Size r = zlen content /\
    reader_run (map (fun op => (w, op)) ops) r = Some (t, r') /\ map fst t = ops /\ file_run content 0 t pos'.
Proof.
  intros Hf Hl Hb HF. eexists. pose proof Hf as (cs & Hd & Ec).
  destruct (run_file w content ops (mkReader root (zlen content) 0 [] None) 0) as (t & r' & pos' & H1 & H2 & H3); auto; try lia.
  { apply reader_at_new. rewrite Ec. now apply file_dag_tree. }
  exists t, r', pos'. split; [exact (new_file w root content Hf ltac:(lia))|]. auto.
Qed.

(** A successful seek fixes the position whatever state the reader was in. *)
Lemma seek_any w p r content n r' : file_content (r_root r) content -> zlen content < 9223372036854775808 -> p <> r_off r ->
  Seek w p 0 r = (n, Ok tt, r') ->
  n = p /\ forall ops, Forall (fun x => no_seek (snd x)) ops ->
    exists t r2 pos', reader_run ops r' = Some (t, r2) /\ map fst t = map snd ops /\ faulty_run content p t pos'.
Proof.
  intros Hf Hl Hne H. change (Seek w p 0 r) with (seek_start w p r) in H.
  destruct (Z_lt_dec p 0) as [L|L].
  { unfold seek_start in H. replace (p <? 0) with true in H by lia. discriminate. }
  pose proof (seek_start_spec w p r content Hf Hl ltac:(lia) Hne) as S. rewrite H in S. destruct S as (_ & _ & -> & S).
  split; [reflexivity|]. intros ops HF. destruct (run_faulty content ops r' p S HF) as (t & r2 & pos' & H1 & H2 & H3 & _). eauto 8.
Qed.

Lemma seek_any_available w p r content : file_content (r_root r) content -> zlen content < 9223372036854775808 -> 0 <= p -> p <> r_off r ->
  below_available w (r_root r) -> exists r', Seek w p 0 r = (p, Ok tt, r').
Proof.
  intros Hf Hl Hp Hne Hb. change (Seek w p 0 r) with (seek_start w p r).
  pose proof (seek_start_spec w p r content Hf Hl ltac:(lia) Hne) as S. destruct (seek_start w p r) as [[n e] r'].
  destruct S as (_ & _ & S). destruct e as [[]|e| |]; try contradiction.
  - destruct S as [-> _]. eauto.
  - destruct S as [_ S]. contradiction.
Qed.

(** ** Independence of the data from the recorded offset *)

Lemma iterate_sim {T} w root (visit : node -> T -> res bool * T) (R : T -> T -> Prop) fuel :
  (forall n s s', R s s' -> fst (visit n s) = fst (visit n s') /\ R (snd (visit n s)) (snd (visit n s'))) ->
  forall st s s', R s s' ->
    let a := iterate w root visit fuel st s in let b := iterate w root visit fuel st s' in
    fst a = fst b /\ R (snd a) (snd b).
Proof.
  intros HR. induction fuel as [|f IH]; intros st s s' H; cbn [iterate]; [auto|].
  destruct (fetch_child w root st) as [|e|n| |]; auto.
  - destruct (next_up st) as [[|] st']; auto.
  - destruct (HR n s s' H) as [H1 H2]. destruct (visit n s) as [x t], (visit n s') as [x' t']. cbn in H1, H2. subst x'.
    destruct x as [[|]|e| |]; auto.
Qed.

Definition same_but_off (a b : reader) : Prop :=
  r_root a = r_root b /\ r_size a = r_size b /\ r_stack a = r_stack b /\ r_data a = r_data b.

Definition Rrs (a b : rstate) : Prop := rs_out a = rs_out b /\ rs_room a = rs_room b /\ rs_data a = rs_data b.
Definition Rws (a b : wstate) : Prop := ws_out a = ws_out b /\ ws_data a = ws_data b.

Lemma read_buffer_sim b s s' : Rrs s s' -> Rrs (read_buffer b s) (read_buffer b s').
Proof.
  intros (H1 & H2 & H3). unfold read_buffer. rewrite H1, H2. destruct (take_buffer (rs_room s') b). repeat (split; [reflexivity|]). reflexivity.
Qed.
Lemma write_buffer_sim wr b s s' : Rws s s' -> fst (write_buffer wr b s) = fst (write_buffer wr b s') /\ Rws (snd (write_buffer wr b s)) (snd (write_buffer wr b s')).
Proof.
  intros (H1 & H2). unfold write_buffer. rewrite H1. destruct (br_rest b); [split; [reflexivity|now split]|].
  destruct (wr (ws_out s') _) as [m0 fail]. destruct (fail || _); cbn; split; try reflexivity; now split.
Qed.

Lemma read_sim w k a b : same_but_off a b ->
  fst (CtxReadFull w k a) = fst (CtxReadFull w k b) /\ same_but_off (snd (CtxReadFull w k a)) (snd (CtxReadFull w k b)).
Proof.
  intros (H1 & H2 & H3 & H4). unfold CtxReadFull. rewrite H1, H2, H3, H4.
  assert (G : forall s s', Rrs s s' ->
     let go s := let '(x, st, s') := iterate w (r_root b) read_visit (walk_fuel (r_root b) (r_stack b)) (r_stack b) s in
       (rs_out s', read_end x, mkReader (r_root b) (r_size b) (rs_off s') st (rs_data s')) in
     fst (go s) = fst (go s') /\ same_but_off (snd (go s)) (snd (go s'))).
  { intros s s' Hs. cbn beta zeta.
    pose proof (iterate_sim w (r_root b) read_visit Rrs (walk_fuel (r_root b) (r_stack b))) as S.
    specialize (S ltac:(intros n t t' Ht; unfold read_visit; destruct (node_links n); [|auto];
      destruct (ReadUnixFSNodeData n); auto; pose proof (read_buffer_sim (a0, 0) t t' Ht) as Q; cbn [fst snd];
      split; [destruct Q as (_ & -> & _); reflexivity|exact Q]) (r_stack b) s s' Hs).
    cbn zeta in S. destruct (iterate w (r_root b) read_visit (walk_fuel (r_root b) (r_stack b)) (r_stack b) s) as [[x st] t].
    destruct (iterate w (r_root b) read_visit (walk_fuel (r_root b) (r_stack b)) (r_stack b) s') as [[x' st'] t'].
    cbn in S. destruct S as [S1 (S2 & S3 & S4)]. injection S1 as -> ->. cbn. rewrite S2, S4.
    split; [reflexivity|]. unfold same_but_off. cbn. auto. }
  destruct (r_data b) as [d|].
  - pose proof (read_buffer_sim d (mkRs [] k (r_off a) None) (mkRs [] k (r_off b) None) ltac:(now split)) as Q.
    destruct Q as (Q1 & Q2 & Q3). rewrite Q2. destruct (rs_room _ =? 0)%nat.
    + cbn [fst snd]. rewrite Q1, Q3. split; [reflexivity|]. unfold same_but_off. cbn. auto.
    + apply G. now split.
  - apply G. now split.
Qed.

Lemma copy_sim w wr a b : same_but_off a b ->
  fst (WriteTo w wr a) = fst (WriteTo w wr b) /\ same_but_off (snd (WriteTo w wr a)) (snd (WriteTo w wr b)).
Proof.
  intros (H1 & H2 & H3 & H4). unfold WriteTo. rewrite H1, H2, H3, H4.
  assert (G : forall s s', Rws s s' ->
     let go s := let '(x, st, s') := iterate w (r_root b) (write_visit wr) (walk_fuel (r_root b) (r_stack b)) (r_stack b) s in
       (ws_out s', write_end x, mkReader (r_root b) (r_size b) (ws_off s') st (ws_data s')) in
     fst (go s) = fst (go s') /\ same_but_off (snd (go s)) (snd (go s'))).
  { intros s s' Hs. cbn beta zeta.
    pose proof (iterate_sim w (r_root b) (write_visit wr) Rws (walk_fuel (r_root b) (r_stack b))) as S.
    specialize (S ltac:(intros n t t' Ht; unfold write_visit; destruct (node_links n); [|auto];
      destruct (ReadUnixFSNodeData n); auto; destruct (write_buffer_sim wr (a0, 0) t t' Ht) as [Q1 Q2];
      destruct (write_buffer wr (a0, 0) t) as [x y], (write_buffer wr (a0, 0) t') as [x' y']; cbn [fst snd] in Q1, Q2; subst x';
      destruct x; auto) (r_stack b) s s' Hs).
    cbn zeta in S. destruct (iterate w (r_root b) (write_visit wr) (walk_fuel (r_root b) (r_stack b)) (r_stack b) s) as [[x st] t].
    destruct (iterate w (r_root b) (write_visit wr) (walk_fuel (r_root b) (r_stack b)) (r_stack b) s') as [[x' st'] t'].
    cbn in S. destruct S as [S1 (S2 & S3)]. injection S1 as -> ->. cbn. rewrite S2, S3.
    split; [reflexivity|]. unfold same_but_off. cbn. auto. }
  destruct (r_data b) as [d|].
  - destruct (write_buffer_sim wr d (mkWs [] (r_off a) None) (mkWs [] (r_off b) None) ltac:(now split)) as [Q1 Q2].
    destruct (write_buffer wr d (mkWs [] (r_off a) None)) as [x y], (write_buffer wr d (mkWs [] (r_off b) None)) as [x' y']. cbn [fst snd] in Q1, Q2. subst x'.
    destruct x; [apply G; exact Q2| | |]; destruct Q2 as [Q2 Q3]; cbn; rewrite Q2, Q3; (split; [reflexivity|]; unfold same_but_off; cbn; auto).
  - apply G. now split.
Qed.

Lemma run_sim ops : forall a b, same_but_off a b -> Forall (fun x => no_seek (snd x)) ops ->
  option_map fst (reader_run ops a) = option_map fst (reader_run ops b).
Proof.
  induction ops as [|[w op] ops IH]; intros a b H HF; cbn [reader_run]; [reflexivity|]. inversion HF; subst. cbn in H2.
  assert (S : exists x y z, same_but_off y z /\ ((reader_step w op a = None /\ reader_step w op b = None) \/
     (reader_step w op a = Some (x, y) /\ reader_step w op b = Some (x, z)))).
  { destruct op; cbn in H2; [|destruct H2|]; cbn [reader_step].
    - destruct (read_sim w k a b H) as [S1 S2]. destruct (CtxReadFull w k a) as [[m e] y], (CtxReadFull w k b) as [[m' e'] z].
      cbn in S1, S2. injection S1 as <- <-. destruct (obs_err e) as [o|]; [eauto 8|]. exists ([], 0, None), y, z. auto.
    - destruct (copy_sim w good_writer a b H) as [S1 S2]. destruct (WriteTo w good_writer a) as [[m e] y], (WriteTo w good_writer b) as [[m' e'] z].
      cbn in S1, S2. injection S1 as <- <-. destruct (obs_err e) as [o|]; [eauto 8|]. exists ([], 0, None), y, z. auto. }
  destruct S as (x & y & z & Hs & [[-> ->]|[-> ->]]); [reflexivity|]. specialize (IH y z Hs H3).
  destruct (reader_run ops y) as [[? ?]|], (reader_run ops z) as [[? ?]|]; cbn in *; congruence.
Qed.

(** A failing destination: it has received the next bytes of the file, and reading
    goes on behind them. *)
Lemma write_fault w0 w root r content wr ops : NewDagReader w0 root = Ok r -> tree_bytes (r_root r) content ->
  forall before, Forall (fun x => no_seek (snd x)) before -> forall t0 r1, reader_run before r = Some (t0, r1) ->
  exists pos, faulty_run content 0 t0 pos /\
  let '(m, e, r2) := WriteTo w wr r1 in
  m = read_at content pos (length m) /\
  ((exists u, e = Ok u) -> m = skipn (Z.to_nat pos) content) /\
  (forall x, e = Err x -> x = EFetch \/ x = EWrite) /\ e <> Panic /\ e <> Fuel /\
  (Forall (fun x => no_seek (snd x)) ops ->
   exists t r3 pos', reader_run ops r2 = Some (t, r3) /\ map fst t = map snd ops /\ faulty_run content (pos + zlen m) t pos').
Proof.
  intros H Ht before Hb t0 r1 Hrun. pose proof (new_reader_at _ _ _ _ H Ht) as Hr.
  destruct (run_faulty content before r 0 Hr Hb) as (t & r' & pos & R1 & _ & R3 & R4). rewrite R1 in Hrun. injection Hrun as -> ->.
  exists pos. split; [exact R3|]. pose proof (WriteTo_spec w wr content pos r1 R4) as S.
  destruct (WriteTo w wr r1) as [[m e] r2]. destruct S as (S1 & S2 & S3 & S4 & S5).
  split; [exact S4|]. split; [|split; [|split; [|split]]].
  - intros [u ->]. apply S5.
  - intros x ->. destruct S5 as [(-> & _)|(-> & _)]; auto.
  - intros ->. exact S5.
  - intros ->. exact S5.
  - intros HF. destruct (run_faulty content ops _ _ S3 HF) as (t & r3 & pos' & T1 & T2 & T3 & _).
    pose proof (run_sim ops r2 (mkReader (r_root r2) (r_size r2) (pos + zlen m) (r_stack r2) (r_data r2)) ltac:(unfold same_but_off; cbn; auto) HF) as Q.
    rewrite T1 in Q. destruct (reader_run ops r2) as [[t' r4]|]; [|discriminate]. cbn in Q. injection Q as ->. eauto 8.
Qed.
