(** Consequences of the exact machine, and witnesses. *)
From Verif Require Import Base Pb FSNode Dag DagProofs Builder Trickle Importer Reader Modifier
  SpecFile SpecAppend SpecReader SpecModifier SpecExact AppendProofs AppendRun ReaderProofs ReaderRun ReaderProofs2 ReaderWitness GrowProofs ModifierProofs ModifierRun ModifierFacts ExactProofs.

(** A file as the modifier can work on it. *)
Definition opened (n : node) (c : bytes) (w : world) : Prop :=
  file_content n c /\ growable K n /\ available w n /\ can_add w /\ serves w /\ zlen c < 9223372036854775808.

Lemma opened_xinv n c w : opened n c w -> xinv (x_new c) (NewDagModifier n) w.
Proof. intros (H1 & H2 & H3 & H4 & H5 & H6). now apply xinv_new. Qed.

Lemma modifier_exact : forall split wbsize n c w ops, chunker_ok split -> opened n c w -> all_ok wbsize (x_new c) ops ->
  exists h s, mod_calls split wbsize ops (NewDagModifier n, w) = (h, s) /\ map (fun x => fst (fst x)) h = ops /\ exactly wbsize (x_new c) h.
Proof.
  intros split wbsize n c w ops Hs Ho Ha. destruct (calls_exact split wbsize Hs ops _ _ _ (opened_xinv _ _ _ Ho) Ha) as (h & m' & w' & E1 & E2 & E3 & _). eauto 6.
Qed.

(** One more call after a history. *)
Lemma one_more split wbsize n c w ops op : chunker_ok split -> opened n c w -> all_ok wbsize (x_new c) (ops ++ [op]) ->
  exists h o w', fst (mod_calls split wbsize (ops ++ [op]) (NewDagModifier n, w)) = h ++ [(op, o, w')] /\
    x_answer w' (x_after wbsize (x_new c) ops) op o.
Proof.
  intros Hs Ho Ha. apply all_ok_app in Ha as [Ha [Hb _]].
  destruct (calls_exact split wbsize Hs ops _ _ _ (opened_xinv _ _ _ Ho) Ha) as (h & m' & w' & E1 & E2 & E3 & X).
  destruct (call_any split wbsize Hs _ op m' w' X Hb) as (o & m2 & w2 & S1 & S2 & _).
  rewrite calls_app, E1. cbn [fst snd mod_calls]. rewrite S1. cbn [fst snd]. eauto 8.
Qed.

(** ** Truncating to a negative size *)

Lemma negative_panics : forall split wbsize n c w ops size, chunker_ok split -> opened n c w -> all_ok wbsize (x_new c) ops ->
  -9223372036854775808 <= size < 0 -> fst (mod_call split wbsize (MTruncate size) (snd (mod_calls split wbsize ops (NewDagModifier n, w)))) = Panic.
Proof.
  intros split wbsize n c w ops size Hs Ho Ha Hsz. destruct (calls_exact split wbsize Hs ops _ _ _ (opened_xinv _ _ _ Ho) Ha) as (h & m' & w' & E1 & E2 & E3 & X).
  rewrite E1. cbn [snd]. exact (call_Truncate_negative split wbsize Hs _ _ _ size X Hsz).
Qed.

(** ** The size and the position *)

Lemma after_snoc limit s ops op : x_after limit s (ops ++ [op]) = x_next limit (x_after limit s ops) op.
Proof. unfold x_after. now rewrite fold_left_app. Qed.

Lemma two_more split wbsize n c w ops op1 op2 : chunker_ok split -> opened n c w -> all_ok wbsize (x_new c) (ops ++ [op1; op2]) ->
  exists h o1 w1 o2 w2, fst (mod_calls split wbsize (ops ++ [op1; op2]) (NewDagModifier n, w)) = h ++ [(op1, o1, w1); (op2, o2, w2)] /\
    x_answer w1 (x_after wbsize (x_new c) ops) op1 o1 /\ x_answer w2 (x_next wbsize (x_after wbsize (x_new c) ops) op1) op2 o2.
Proof.
  intros Hs Ho Ha. apply all_ok_app in Ha as [Ha [Hb [Hc _]]].
  destruct (calls_exact split wbsize Hs ops _ _ _ (opened_xinv _ _ _ Ho) Ha) as (h & m' & w' & E1 & E2 & E3 & X).
  destruct (call_any split wbsize Hs _ op1 m' w' X Hb) as (o1 & m1 & w1 & S1 & S2 & X1).
  destruct (call_any split wbsize Hs _ op2 m1 w1 X1 Hc) as (o2 & m2 & w2 & T1 & T2 & _).
  rewrite calls_app, E1. cbn [fst snd mod_calls]. rewrite S1, T1. cbn [fst snd]. eauto 10.
Qed.

Lemma seek_end_exact : forall split wbsize n c w ops o, chunker_ok split -> opened n c w -> all_ok wbsize (x_new c) (ops ++ [MSize; MSeek o 2]) ->
  exists h z a w1 w2, fst (mod_calls split wbsize (ops ++ [MSize; MSeek o 2]) (NewDagModifier n, w)) = h ++ [(MSize, Ok (BInt z), w1); (MSeek o 2, a, w2)] /\
    (a = Ok (BInt (z - o)) \/ a = Err EInvalidOffset) /\ (Forall (fun op => match op with MRead _ => False | _ => True end) ops -> a = Ok (BInt (z - o))).
Proof.
  intros split wbsize n c w ops o Hs Ho Ha. destruct (two_more split wbsize n c w ops _ _ Hs Ho Ha) as (h & o1 & w1 & o2 & w2 & E & A1 & A2).
  cbn [x_next x_answer] in A1, A2. subst o1 o2. exists h, (zlen (x_content (x_after wbsize (x_new c) ops))), (x_seek_answer (x_after wbsize (x_new c) ops) o 2), w1, w2.
  split; [exact E|]. unfold x_seek_answer. change (whence_ok 2) with true. cbv iota.
  change (x_target (x_after wbsize (x_new c) ops) o 2) with (zlen (x_content (x_after wbsize (x_new c) ops)) - o). split.
  - destruct (x_read _) as [r|]; [|now left]. destruct (in_range _); auto.
  - intros HF. assert (Hr : forall s, x_read s = None -> Forall (fun op => match op with MRead _ => False | _ => True end) ops -> x_read (x_after wbsize s ops) = None).
    { clear. assert (F : forall s, x_read s = None -> x_read (x_flush s) = None) by (intros s; unfold x_flush; destruct (x_buf s); auto).
      assert (W : forall l b s, x_read (x_write l b s) = None) by (intros; unfold x_write; destruct (_ <? _); reflexivity).
      induction ops as [|op ops IH]; intros s Hs HF; [exact Hs|]. apply Forall_cons_iff in HF as [H1 H2]. unfold x_after. cbn [fold_left]. apply IH; [|exact H2].
      destruct op; cbn [x_next]; auto; try contradiction.
      - unfold x_seek, x_extend, x_resize. pose proof (F s Hs) as Q. destruct (whence_ok whence); [|exact Q]. destruct (_ <? _); cbn [x_read]; rewrite Q; reflexivity.
      - destruct (_ =? _); [auto|]. cbn [x_resize x_read]. now rewrite (F s Hs). }
    specialize (Hr (x_new c) eq_refl HF). unfold x_flush. destruct (x_buf _); cbn [x_read]; rewrite ?Hr; reflexivity.
Qed.

Lemma size_is_length : forall split wbsize n c w ops, chunker_ok split -> opened n c w -> all_ok wbsize (x_new c) ops ->
  exists h z n' c' w1 w2, fst (mod_calls split wbsize (ops ++ [MSize; MGetNode]) (NewDagModifier n, w)) = h ++ [(MSize, Ok (BInt z), w1); (MGetNode, Ok (BNode n'), w2)] /\
    file_content n' c' /\ available w2 n' /\ z = zlen c'.
Proof.
  intros split wbsize n c w ops Hs Ho Ha. destruct (two_more split wbsize n c w ops MSize MGetNode Hs Ho) as (h & o1 & w1 & o2 & w2 & E & A1 & (n' & A2 & A3 & A4)).
  { apply all_ok_app. split; [exact Ha|]. cbn. auto. }
  cbn [x_next x_answer] in *. subst o1 o2. eauto 12.
Qed.

(** ** Places *)

Lemma x_wf limit ops : forall s, 0 <= x_start s -> all_ok limit s ops -> 0 <= x_start (x_after limit s ops).
Proof.
  assert (F : forall s, 0 <= x_start s -> 0 <= x_start (x_flush s)).
  { intros s H. unfold x_flush. destruct (x_buf s) as [b|]; [|exact H]. cbn. pose proof (zlen_nonneg b). lia. }
  assert (W : forall b s, 0 <= x_start s -> 0 <= x_start (x_write limit b s)).
  { intros b s H. unfold x_write. destruct (_ <? _); [apply F|]; exact H. }
  induction ops as [|op ops IH]; intros s Hs Ha; [exact Hs|]. destruct Ha as [Ho Ha]. unfold x_after. cbn [fold_left]. apply IH; [|exact Ha].
  destruct op; cbn [x_next]; auto.
  - apply W. destruct Ho as [Ho _]. unfold x_place. destruct (off =? x_pos s); destruct (x_buf s); try exact Hs; try exact Ho; destruct (_ =? _); try exact Hs; try exact Ho; destruct (_ <=? _); exact Hs.
  - unfold x_seek. destruct Ho as [_ Ho]. destruct (whence_ok whence); [|auto]. cbn. specialize (Ho eq_refl). unfold in_range in Ho. lia.
  - destruct (_ =? _); cbn; auto.
  - cbn. auto.
Qed.

Lemma flush_flush s : x_flush (x_flush s) = x_flush s.
Proof. unfold x_flush at 1. now rewrite x_flush_buf. Qed.
Lemma write_flush limit b s : 0 <= x_start s ->
  x_flush (x_write limit b s) = mkX (put (x_content s) (x_end s) b) None (x_end s + zlen b) (x_pos s + zlen b) None.
Proof.
  intros Hs. unfold x_write. assert (E : x_flush (mkX (x_file s) (Some (x_pending s ++ b)) (x_start s) (x_pos s + zlen b) None) =
    mkX (put (x_content s) (x_end s) b) None (x_end s + zlen b) (x_pos s + zlen b) None).
  { unfold x_flush, x_content, x_end, x_pending. cbn [x_buf x_file x_start x_pos]. destruct (x_buf s) as [x|].
    - rewrite put_put by exact Hs. f_equal. rewrite zlen_app. lia.
    - rewrite zlen_nil, Z.add_0_r. reflexivity. }
  destruct (_ <? _); [rewrite flush_flush|]; exact E.
Qed.
Lemma content_flush s : x_content s = x_file (x_flush s).
Proof. now rewrite x_flush_file. Qed.
Lemma write_content limit b s : 0 <= x_start s -> x_content (x_write limit b s) = put (x_content s) (x_end s) b.
Proof. intros H. now rewrite content_flush, write_flush. Qed.

(** Reads and where writes go. *)
Lemma reads_keep limit ks : forall s, all_ok limit s (map MRead ks) -> x_content (x_after limit s (map MRead ks)) = x_content s /\ x_end (x_after limit s (map MRead ks)) = x_end s.
Proof.
  induction ks as [|k ks IH]; intros s Ha; [split; reflexivity|]. destruct Ha as [_ Ha]. unfold x_after. cbn [map fold_left]. destruct (IH _ Ha) as [I1 I2].
  unfold x_after in I1, I2. rewrite I1, I2. cbn [x_next]. split.
  - unfold x_content at 1. cbn [x_buf x_file]. apply x_flush_file.
  - unfold x_end at 1, x_pending. cbn [x_buf x_start]. rewrite zlen_nil, x_flush_start. lia.
Qed.

Lemma reads_pos limit ks : forall s, x_pos s <= x_pos (x_after limit s (map MRead ks)).
Proof.
  induction ks as [|k ks IH]; intros s; [reflexivity|]. unfold x_after. cbn [map fold_left]. eapply Z.le_trans; [|apply IH].
  cbn [x_next x_pos]. rewrite x_flush_pos. pose proof (zlen_nonneg (read_at (x_file (x_flush s)) (xr_pos (x_reader (x_flush s))) k)). lia.
Qed.

Lemma reads_do_not_move_writes : forall split wbsize n c w ops ks b, chunker_ok split -> opened n c w -> all_ok wbsize (x_new c) (ops ++ map MRead ks ++ [MWrite b]) ->
  exists h1 h2 n1 n2 w1 w2 c', fst (mod_calls split wbsize (ops ++ map MRead ks ++ [MWrite b; MGetNode]) (NewDagModifier n, w)) = h1 ++ [(MGetNode, Ok (BNode n1), w1)] /\
    fst (mod_calls split wbsize (ops ++ [MWrite b; MGetNode]) (NewDagModifier n, w)) = h2 ++ [(MGetNode, Ok (BNode n2), w2)] /\
    file_content n1 c' /\ file_content n2 c'.
Proof.
  intros split wbsize n c w ops ks b Hs Ho Ha.
  assert (Hb : all_ok wbsize (x_new c) (ops ++ [MWrite b])).
  { apply all_ok_app in Ha as [Ha1 Ha]. apply all_ok_app in Ha as [Ha2 [[Ha3 Ha4] _]]. apply all_ok_app. split; [exact Ha1|]. split; [|exact I].
    destruct (reads_keep wbsize ks _ Ha2) as [_ R2]. pose proof (reads_pos wbsize ks (x_after wbsize (x_new c) ops)). cbn [x_ok]. rewrite R2 in Ha3. lia. }
  destruct (one_more split wbsize n c w (ops ++ map MRead ks ++ [MWrite b]) MGetNode Hs Ho) as (h1 & o1 & w1 & E1 & (n1 & -> & A1 & _)); [apply all_ok_app; split; [exact Ha|cbn; auto]|].
  destruct (one_more split wbsize n c w (ops ++ [MWrite b]) MGetNode Hs Ho) as (h2 & o2 & w2 & E2 & (n2 & -> & A2 & _)); [apply all_ok_app; split; [exact Hb|cbn; auto]|].
  rewrite <- !app_assoc in E1. rewrite <- !app_assoc in E2. cbn [app] in E1, E2. exists h1, h2, n1, n2, w1, w2. eexists. split; [exact E1|]. split; [exact E2|]. split; [|exact A2].
  assert (Hst : 0 <= x_start (x_after wbsize (x_new c) ops)) by (apply x_wf; [reflexivity|]; apply all_ok_app in Hb as [Hb _]; exact Hb).
  rewrite after_snoc in A2 |- *. cbn [x_next] in *. rewrite write_content by exact Hst.
  apply all_ok_app in Ha as [Ha1 Ha]. apply all_ok_app in Ha as [Ha2 Ha]. destruct (reads_keep wbsize ks _ Ha2) as [R1 R2].
  rewrite app_assoc, after_snoc in A1. cbn [x_next] in A1. rewrite write_content in A1.
  - rewrite after_app, R1, R2 in A1. exact A1.
  - rewrite after_app. apply x_wf; [exact Hst|exact Ha2].
Qed.

(** Writing at an offset when nothing is pending. *)
Lemma place_clean b off s : x_buf s = None -> off <> x_pos s ->
  x_content (x_place b off s) = pad (x_content s) off /\ x_end (x_place b off s) = off /\ x_start (x_place b off s) = off.
Proof.
  intros Hb Hn. unfold x_place. rewrite Hb. replace (off =? x_pos s) with false by lia. cbv zeta. unfold x_content at 1. cbn [x_buf x_file]. unfold x_end, x_pending. cbn [x_buf x_start]. rewrite zlen_nil.
  split; [|lia]. rewrite x_flush_file. destruct (x_extend_keep (zlen (x_file s) + (off - zlen (x_content s))) s) as (K1 & _). rewrite Hb in K1. unfold x_content at 1. rewrite K1. rewrite x_extend_file.
  assert (E : x_content s = x_file s) by (unfold x_content; now rewrite Hb). rewrite E. f_equal. lia.
Qed.

Lemma writeat_then_write : forall split wbsize n c w ops b1 off b2, chunker_ok split -> opened n c w ->
  all_ok wbsize (x_new c) (ops ++ [MSync; MWriteAt b1 off; MWrite b2]) -> off <> x_pos (x_after wbsize (x_new c) ops) ->
  exists h n1 w1, fst (mod_calls split wbsize (ops ++ [MSync; MWriteAt b1 off; MWrite b2; MGetNode]) (NewDagModifier n, w)) = h ++ [(MGetNode, Ok (BNode n1), w1)] /\
    file_content n1 (put (x_content (x_after wbsize (x_new c) ops)) off (b1 ++ b2)).
Proof.
  intros split wbsize n c w ops b1 off b2 Hs Ho Ha Hn.
  destruct (one_more split wbsize n c w (ops ++ [MSync; MWriteAt b1 off; MWrite b2]) MGetNode Hs Ho) as (h & o & w1 & E & (n1 & -> & A & _)); [apply all_ok_app; split; [exact Ha|cbn; auto]|].
  rewrite <- app_assoc in E. cbn [app] in E. exists h, n1, w1. split; [exact E|]. rewrite after_app in A. set (s := x_after wbsize (x_new c) ops) in *.
  unfold x_after in A. cbn [fold_left x_next] in A.
  apply all_ok_app in Ha as [_ (_ & (Hoff & _) & _)].
  destruct (place_clean b1 off (x_flush s) (x_flush_buf s) ltac:(rewrite x_flush_pos; exact Hn)) as (P1 & P2 & P3).
  set (p := x_place b1 off (x_flush s)) in *. assert (Hp : 0 <= x_start p) by (rewrite P3; exact Hoff).
  assert (Hw : 0 <= x_start (x_write wbsize b1 p)).
  { unfold x_write. destruct (_ <? _); [|exact Hp]. rewrite x_flush_start. change (0 <= x_start p + zlen (x_pending p ++ b1)). pose proof (zlen_nonneg (x_pending p ++ b1)). lia. }
  rewrite write_content in A by exact Hw. rewrite write_content in A by exact Hp.
  assert (Ee : x_end (x_write wbsize b1 p) = off + zlen b1).
  { rewrite <- x_flush_start, write_flush by exact Hp. cbn [x_start]. lia. }
  rewrite Ee, P1, P2 in A. rewrite put_pad in A. rewrite put_put in A by exact Hoff. rewrite content_flush in A. rewrite flush_flush, <- content_flush in A. exact A.
Qed.

Lemma writeat_position : forall split wbsize n c w ops b, chunker_ok split -> opened n c w ->
  let s := x_after wbsize (x_new c) ops in
  all_ok wbsize (x_new c) (ops ++ [MSync; MWriteAt b (x_pos s)]) ->
  exists h n1 w1, fst (mod_calls split wbsize (ops ++ [MSync; MWriteAt b (x_pos s); MGetNode]) (NewDagModifier n, w)) = h ++ [(MGetNode, Ok (BNode n1), w1)] /\
    file_content n1 (put (x_content s) (x_end s) b).
Proof.
  intros split wbsize n c w ops b Hs Ho s Ha.
  destruct (one_more split wbsize n c w (ops ++ [MSync; MWriteAt b (x_pos s)]) MGetNode Hs Ho) as (h & o & w1 & E & (n1 & -> & A & _)); [apply all_ok_app; split; [exact Ha|cbn; auto]|].
  rewrite <- app_assoc in E. cbn [app] in E. exists h, n1, w1. split; [exact E|]. rewrite after_app in A. fold s in A. unfold x_after in A. cbn [fold_left x_next] in A.
  assert (Hst : 0 <= x_start s) by (apply x_wf; [reflexivity|]; apply all_ok_app in Ha as [Ha _]; exact Ha).
  assert (P : x_place b (x_pos s) (x_flush s) = x_flush s) by (unfold x_place; rewrite x_flush_buf, x_flush_pos, Z.eqb_refl; reflexivity). rewrite P in A.
  rewrite write_content in A by (rewrite x_flush_start; unfold x_end; pose proof (zlen_nonneg (x_pending s)); lia).
  rewrite content_flush, flush_flush, <- content_flush in A.
  assert (Ee : x_end (x_flush s) = x_end s) by (rewrite <- (x_flush_start (x_flush s)), flush_flush; apply x_flush_start). now rewrite Ee in A.
Qed.

(** ** Sync is not observable without WriteAt *)

Lemma ok_flush s s' op : no_writeat op -> x_flush s = x_flush s' -> x_ok s op -> x_ok s' op.
Proof.
  intros Hn E. assert (E1 : x_content s = x_content s') by (rewrite !content_flush; now rewrite E).
  assert (E2 : x_end s = x_end s') by (rewrite <- !x_flush_start; now rewrite E). assert (E3 : x_pos s = x_pos s') by (rewrite <- (x_flush_pos s), <- (x_flush_pos s'); now rewrite E).
  destruct op; cbn [x_ok]; try contradiction; rewrite <- ?E2, <- ?E3, <- ?E; auto; [|now rewrite <- E1].
  intros [H1 H2]. split; [exact H1|]. intros Hw. rewrite <- (H2 Hw). unfold x_target. now rewrite E1, E3.
Qed.
Lemma next_flush l l' s s' op : no_writeat op -> 0 <= x_start s -> 0 <= x_start s' -> x_flush s = x_flush s' -> x_flush (x_next l s op) = x_flush (x_next l' s' op).
Proof.
  intros Hn H1 H2 E. assert (E1 : x_content s = x_content s') by (rewrite !content_flush; now rewrite E).
  assert (E2 : x_end s = x_end s') by (rewrite <- !x_flush_start; now rewrite E). assert (E3 : x_pos s = x_pos s') by (rewrite <- (x_flush_pos s), <- (x_flush_pos s'); now rewrite E).
  destruct op; cbn [x_next]; try contradiction; rewrite <- ?E; auto.
  - rewrite !write_flush by assumption. now rewrite E1, E2, E3.
  - unfold x_seek. rewrite <- E. unfold x_target. now rewrite E1, E3.
Qed.
Lemma answer_same w w' s s' op o o' : no_writeat op -> x_flush s = x_flush s' -> x_answer w s op o -> x_answer w' s' op o' -> same_answer (op, o) (op, o').
Proof.
  intros Hn E. assert (E1 : x_content s = x_content s') by (rewrite !content_flush; now rewrite E). assert (E3 : x_pos s = x_pos s') by (rewrite <- (x_flush_pos s), <- (x_flush_pos s'); now rewrite E).
  unfold same_answer. destruct op; cbn [x_answer fst snd]; try contradiction.
  - intros -> ->. auto.
  - intros -> ->. split; [reflexivity|]. unfold x_seek_answer, x_target. now rewrite E, E1, E3.
  - intros -> ->. auto.
  - intros (d & e & p & -> & A) (d' & e' & p' & -> & B). split; [reflexivity|]. rewrite <- E1, <- E in B. set (q := xr_pos _) in *. inversion A as [k1 e1 X1 X2 X3 Y1 Y2 Y3| | | | ]; subst. inversion B as [k2 e2 Z1 Z2 Z3 Y1 Y2 Y3| | | | ]; subst.
    eexists _, _, _. split; [reflexivity|]. split; [reflexivity|]. intros Hk.
    destruct X1 as [->| ->], Z1 as [->| ->]; auto.
    + destruct (Z3 eq_refl) as [->|L]; [lia|]. specialize (X2 L). discriminate.
    + destruct (X3 eq_refl) as [->|L]; [lia|]. specialize (Z2 L). discriminate.
  - intros -> ->. split; [reflexivity|]. now rewrite E1.
  - intros -> ->. auto.
  - intros (n & -> & A & _) (n' & -> & B & _). split; [reflexivity|]. rewrite <- E1 in B. eauto 8.
Qed.

Lemma sync_head l s ops : nosync (MSync :: ops) = nosync ops /\ x_flush (x_next l s MSync) = x_flush s.
Proof. split; [reflexivity|apply flush_flush]. Qed.

Lemma start_next l s op : 0 <= x_start s -> x_ok s op -> 0 <= x_start (x_next l s op).
Proof. intros H1 H2. apply (x_wf l [op] s H1). cbn. auto. Qed.

Lemma nosync_ok l l' : forall ops ops' s s', nosync ops = nosync ops' -> Forall no_writeat ops -> 0 <= x_start s -> 0 <= x_start s' -> x_flush s = x_flush s' -> all_ok l s ops -> all_ok l' s' ops'.
Proof.
  intros ops ops'. remember (length ops + length ops')%nat as k eqn:Ek. revert ops ops' Ek. induction k as [k IH] using lt_wf_ind. intros ops ops' Ek s s' En Hw H1 H2 E Ha.
  assert (S : forall op r, ops = op :: r -> op = MSync -> all_ok l' s' ops').
  { intros op r -> ->. destruct Ha as [Ha Hr]. apply Forall_cons_iff in Hw as [_ Hw]. cbn in Ek. eapply (IH (length r + length ops')%nat); [lia|reflexivity|exact En|exact Hw| |exact H2| |exact Hr].
    - apply (start_next l s MSync); [assumption|exact I].
    - cbn [x_next]. now rewrite flush_flush. }
  destruct ops' as [|op' r']; [exact I|]. destruct (is_sync op') eqn:Es.
  - destruct op'; try discriminate. cbn [all_ok x_ok]. split; [exact I|]. cbn in Ek. eapply (IH (length ops + length r')%nat); [lia|reflexivity|exact En|exact Hw|exact H1| | |exact Ha].
    + apply (start_next l' s' MSync); [assumption|exact I].
    + cbn [x_next]. now rewrite flush_flush.
  - destruct ops as [|op r].
    + cbn in En. rewrite Es in En. discriminate.
    + destruct (is_sync op) eqn:Es'; [apply (S op r eq_refl); destruct op; auto; discriminate|]. clear S.
      unfold nosync in En. cbn [filter] in En. rewrite Es, Es' in En. cbn [negb] in En. injection En as <- En. fold (nosync r) in En. fold (nosync r') in En.
      destruct Ha as [Ha Hr]. apply Forall_cons_iff in Hw as [Hw1 Hw]. pose proof (ok_flush s s' op Hw1 E Ha) as Ha'. split; [exact Ha'|].
      cbn in Ek. apply (IH (length r + length r')%nat ltac:(lia) r r' eq_refl (x_next l s op) (x_next l' s' op) En Hw); [now apply start_next|now apply start_next|now apply next_flush|exact Hr].
Qed.

Lemma nosync_same l l' : forall h h' s s', nosync (map (fun x => fst (fst x)) h) = nosync (map (fun x => fst (fst x)) h') -> Forall no_writeat (map (fun x => fst (fst x)) h) ->
  0 <= x_start s -> 0 <= x_start s' -> x_flush s = x_flush s' -> all_ok l s (map (fun x => fst (fst x)) h) -> all_ok l' s' (map (fun x => fst (fst x)) h') ->
  exactly l s h -> exactly l' s' h' -> Forall2 same_answer (observed h) (observed h').
Proof.
  intros h h'. remember (length h + length h')%nat as k eqn:Ek. revert h h' Ek. induction k as [k IH] using lt_wf_ind. intros h h' Ek s s' En Hw H1 H2 E Ha Ha' Hx Hx'.
  destruct h as [|[[op o] w] r], h' as [|[[op' o'] w'] r']; cbn [map fst] in *.
  - constructor.
  - destruct (is_sync op') eqn:Es; [|cbn in En; rewrite Es in En; discriminate]. destruct op'; try discriminate. destruct Ha' as [Ha' Hr']. destruct Hx' as [Hx' Hy'].
    cbn in Ek. change (observed ((MSync, o', w') :: r')) with (observed r'). eapply (IH (length r')); [lia|reflexivity|exact En|exact Hw|exact H1| | |exact Ha|exact Hr'|exact Hx|exact Hy'].
    + apply (start_next l' s' MSync); [assumption|exact I].
    + cbn [x_next]. now rewrite flush_flush.
  - destruct (is_sync op) eqn:Es; [|cbn in En; rewrite Es in En; discriminate]. destruct op; try discriminate. destruct Ha as [Ha Hr]. destruct Hx as [Hx Hy]. apply Forall_cons_iff in Hw as [_ Hw].
    cbn in Ek. change (observed ((MSync, o, w) :: r)) with (observed r). eapply (IH (length r + 0)%nat); [lia|reflexivity|exact En|exact Hw| |exact H2| |exact Hr|exact Ha'|exact Hy|exact Hx'].
    + apply (start_next l s MSync); [assumption|exact I].
    + cbn [x_next]. now rewrite flush_flush.
  - destruct (is_sync op) eqn:Es.
    { destruct op; try discriminate. destruct Ha as [Ha Hr]. destruct Hx as [Hx Hy]. apply Forall_cons_iff in Hw as [_ Hw].
      cbn [length] in Ek. change (observed ((MSync, o, w) :: r)) with (observed r). eapply (IH (length r + length ((op', o', w') :: r'))%nat); [cbn [length]; lia|reflexivity|exact En|exact Hw| |exact H2| |exact Hr|exact Ha'|exact Hy|exact Hx'].
      + apply (start_next l s MSync); [assumption|exact I].
      + cbn [x_next]. now rewrite flush_flush. }
    destruct (is_sync op') eqn:Es'.
    { destruct op'; try discriminate. destruct Ha' as [Ha' Hr']. destruct Hx' as [Hx' Hy'].
      cbn [length] in Ek. change (observed ((MSync, o', w') :: r')) with (observed r'). eapply (IH (length ((op, o, w) :: r) + length r')%nat); [cbn [length]; lia|reflexivity|exact En|exact Hw|exact H1| | |exact Ha|exact Hr'|exact Hx|exact Hy'].
      + apply (start_next l' s' MSync); [assumption|exact I].
      + cbn [x_next]. now rewrite flush_flush. }
    unfold nosync in En. cbn [filter] in En. rewrite Es, Es' in En. cbn [negb] in En. injection En as <- En. fold (nosync (map (fun x => fst (fst x)) r)) in En. fold (nosync (map (fun x => fst (fst x)) r')) in En.
    destruct Ha as [Ha Hr], Ha' as [Ha' Hr'], Hx as [Hx Hy], Hx' as [Hx' Hy']. apply Forall_cons_iff in Hw as [Hw1 Hw].
    unfold observed. cbn [map filter fst]. rewrite Es. cbn [negb]. constructor; [eapply answer_same; eassumption|].
    cbn [length] in Ek. apply (IH (length r + length r')%nat ltac:(lia) r r' eq_refl (x_next l s op) (x_next l' s' op) En Hw); [now apply start_next|now apply start_next|now apply next_flush|exact Hr|exact Hr'|exact Hy|exact Hy'].
Qed.

Lemma sync_invisible : forall split split' wbsize wbsize' n c w w' ops ops',
  chunker_ok split -> chunker_ok split' -> opened n c w -> opened n c w' -> all_ok wbsize (x_new c) ops ->
  Forall no_writeat ops -> nosync ops = nosync ops' ->
  Forall2 same_answer (observed (fst (mod_calls split wbsize ops (NewDagModifier n, w)))) (observed (fst (mod_calls split' wbsize' ops' (NewDagModifier n, w')))).
Proof.
  intros split split' wbsize wbsize' n c w w' ops ops' Hs Hs' Ho Ho' Ha Hw En.
  assert (Ha' : all_ok wbsize' (x_new c) ops') by (eapply (nosync_ok wbsize wbsize' ops ops'); try eassumption; try reflexivity; cbn; lia).
  destruct (modifier_exact split wbsize n c w ops Hs Ho Ha) as (h & s & E1 & E2 & E3). destruct (modifier_exact split' wbsize' n c w' ops' Hs' Ho' Ha') as (h' & s' & E1' & E2' & E3').
  rewrite E1, E1'. cbn [fst]. subst ops ops'. eapply (nosync_same wbsize wbsize' h h'); try eassumption; try reflexivity; cbn; lia.
Qed.

(** ** Deciding [all_ok] *)

Definition x_okb (s : xstate) (op : mop) : bool :=
  match op with
  | MWrite b => (x_end s + zlen b <? 9223372036854775808) && (x_pos s + zlen b <? 9223372036854775808)
  | MWriteAt b off => (0 <=? off) && (off + zlen b <? 9223372036854775808) && (x_end s + zlen b <? 9223372036854775808) &&
      (x_pos s + zlen b <? 9223372036854775808)
  | MSeek off wh => (-9223372036854775808 <=? off) && (off <? 9223372036854775808) && (negb (whence_ok wh) || in_range (x_target s off wh))
  | MTruncate n => (0 <=? n) && (n <? 9223372036854775808)
  | MRead k => negb (xr_stale (x_reader (x_flush s))) &&
      (x_pos s + zlen (read_at (x_content s) (xr_pos (x_reader (x_flush s))) k) <? 9223372036854775808)
  | _ => true
  end.
Fixpoint all_okb (limit : Z) (s : xstate) (ops : list mop) : bool :=
  match ops with
  | [] => true
  | op :: r => x_okb s op && all_okb limit (x_next limit s op) r
  end.
Lemma all_okb_sound limit ops : forall s, all_okb limit s ops = true -> all_ok limit s ops.
Proof.
  induction ops as [|op r IH]; intros s H; [exact I|]. cbn [all_okb] in H. apply andb_prop in H as [H1 H2]. split; [|now apply IH].
  destruct op; cbn [x_okb x_ok] in *; try exact I; try lia.
  - apply andb_prop in H1 as [H1 H3]. split; [lia|]. intros Hw. rewrite Hw in H3. exact H3.
  - apply andb_prop in H1 as [H1 H3]. apply negb_true_iff in H1. split; [exact H1|lia].
Qed.

Lemma opened_abcde : opened abcde [x61; x62; x63; x64; x65] full.
Proof.
  split; [exact abcde_content|]. split; [exact abcde_growable|]. split; [apply full_available|]. destruct (full_good abcde) as (H1 & H2 & _). split; [exact H1|]. split; [exact H2|reflexivity].
Qed.

(** The answers, nodes replaced by their contents. *)
Definition shown (h : list (mop * res mobs * world)) : list (res mobs + option bytes) :=
  map (fun x => match snd (fst x) with Ok (BNode n) => inr (tree_read n) | o => inl o end) h.

Definition last_got (h : list (mop * res mobs * world)) : option bytes :=
  match rev h with (MGetNode, Ok (BNode n), _) :: _ => tree_read n | _ => None end.
Lemma last_got_node h c : last_got h = Some c -> exists h' n w, h = h' ++ [(MGetNode, Ok (BNode n), w)] /\ tree_bytes n c.
Proof.
  unfold last_got. destruct (rev h) as [|[[op o] w] r] eqn:E; [discriminate|]. assert (Eh : h = rev r ++ [(op, o, w)]) by (rewrite <- (rev_involutive h), E; reflexivity).
  destruct op; try discriminate. destruct o as [o| | |]; try discriminate. destruct o; try discriminate. intros H. exists (rev r), n, w. split; [exact Eh|now apply tree_read_sound].
Qed.

Lemma sync_visible_refuted : exists h h' s s' n n' w w',
  mod_calls bytewise wb [MWriteAt [x58; x59] 1; MWriteAt [x5a] 1; MGetNode] (NewDagModifier abcde, full) = (h ++ [(MGetNode, Ok (BNode n), w)], s) /\
  mod_calls bytewise wb [MWriteAt [x58; x59] 1; MSync; MWriteAt [x5a] 1; MGetNode] (NewDagModifier abcde, full) = (h' ++ [(MGetNode, Ok (BNode n'), w')], s') /\
  tree_bytes n [x61; x58; x59; x5a; x65] /\ tree_bytes n' [x61; x5a; x59; x64; x65].
Proof.
  set (a := mod_calls bytewise wb [MWriteAt [x58; x59] 1; MWriteAt [x5a] 1; MGetNode] (NewDagModifier abcde, full)).
  set (b := mod_calls bytewise wb [MWriteAt [x58; x59] 1; MSync; MWriteAt [x5a] 1; MGetNode] (NewDagModifier abcde, full)).
  destruct (last_got_node (fst a) [x61; x58; x59; x5a; x65]) as (h & n & w & A1 & A2); [vm_compute; reflexivity|].
  destruct (last_got_node (fst b) [x61; x5a; x59; x64; x65]) as (h' & n' & w' & B1 & B2); [vm_compute; reflexivity|].
  exists h, h', (snd a), (snd b), n, n', w, w'.
  rewrite <- A1, <- B1. split; [apply surjective_pairing|]. split; [apply surjective_pairing|]. split; assumption.
Qed.
