(** Lemmas about appending to trickle files. *)
From Verif Require Import Base Pb PbProofs FSNode FSNodeProofs Dag DagProofs Builder Trickle SpecFile SpecStore SpecAppend
  BuilderProofs TrickleProofs.

Notation csize := (fun cs : list bytes => mod64 (zlen (concat cs))).

(** A file node under construction whose links hold the contents [css]. *)
Record holds (n : fsn) (css : list (list bytes)) : Prop := {
  h_unnamed : Forall unnamed (f_links n);
  h_links : Forall2 file_dag (map lto (f_links n)) css;
  h_blocks : d_blocksizes (f_file n) = map csize css;
  h_size : d_filesize (f_file n) = Some (mod64 (zlen (concat (concat css))));
  h_data : getData (f_file n) = [];
  h_type : getType (f_file n) = TFile \/ getType (f_file n) = TRaw;
  h_some : d_type (f_file n) <> None;
  h_good : good_data (f_file n)
}.

Lemma holds_file_ok n css : holds n css -> file_ok (f_file n).
Proof. intros H. eexists. split; [apply (h_size _ _ H)|apply u64_range]. Qed.

Lemma Forall2_len {A B} (R : A -> B -> Prop) l m : Forall2 R l m -> length l = length m.
Proof. induction 1; cbn; congruence. Qed.

Lemma holds_num n css : holds n css -> fNumChildren n = zlen (f_links n) /\ length css = length (f_links n).
Proof.
  intros H. unfold fNumChildren, NumChildren. rewrite (h_blocks _ _ H). unfold zlen. rewrite map_length.
  pose proof (Forall2_len _ _ _ (h_links _ _ H)) as E. rewrite map_length in E. rewrite E. auto.
Qed.

Lemma good_blocks f bs s : good_data f -> Forall in_u64 bs -> in_u64 s ->
  good_data (set_blocksizes bs (set_filesize (Some s) f)).
Proof.
  intros [(A1 & A2 & A3 & A4 & A5 & A6) U] Hb Hs. split; [|exact U]. unfold fields_ok. cbn. auto 10.
Qed.

Lemma csizes_range css : Forall in_u64 (map csize css).
Proof. apply Forall_forall. intros z Hz. apply in_map_iff in Hz as (cs & <- & _). apply u64_range. Qed.

Lemma pbdata_eq f g : d_type f = d_type g -> d_data f = d_data g -> d_filesize f = d_filesize g ->
  d_blocksizes f = d_blocksizes g -> d_hashtype f = d_hashtype g -> d_fanout f = d_fanout g -> d_unrec f = d_unrec g -> f = g.
Proof. destruct f, g; cbn; congruence. Qed.

Lemma grown_holds n0 d0 n d css0 css a : holds n0 css0 -> grown n0 d0 n d css a -> holds n (css0 ++ css).
Proof.
  intros H G. destruct (gr_links _ _ _ _ _ _ G) as (ls & El & U & F & X & A).
  assert (Hsz : d_filesize (f_file n) = Some (mod64 (zlen (concat (concat (css0 ++ css)))))).
  { rewrite (gr_size _ _ _ _ _ _ G). unfold getFilesize. rewrite (h_size _ _ H). f_equal.
    rewrite concat_app, zlen_concat_app. apply u64_add_u. }
  assert (Hbs : d_blocksizes (f_file n) = map csize (css0 ++ css)).
  { rewrite (gr_blocks _ _ _ _ _ _ G), (h_blocks _ _ H), map_app. reflexivity. }
  constructor; auto.
  - rewrite El. apply Forall_app. split; [apply H|exact U].
  - rewrite El, map_app. apply Forall2_app; [apply H|exact F].
  - unfold getData. rewrite (gr_data _ _ _ _ _ _ G). apply H.
  - unfold getType. rewrite (gr_type _ _ _ _ _ _ G). apply H.
  - rewrite (gr_type _ _ _ _ _ _ G). apply H.
  - replace (f_file n) with (set_blocksizes (map csize (css0 ++ css)) (set_filesize (Some (mod64 (zlen (concat (concat (css0 ++ css)))))) (f_file n0))).
    + apply good_blocks; [apply H|apply csizes_range|apply u64_range].
    + apply pbdata_eq; cbn; symmetry; try apply G; assumption.
Qed.

Lemma solid_app a b : solid (a ++ b) = solid a ++ solid b.
Proof. apply filter_app. Qed.
Lemma holds_dag n css : holds n css -> committed n -> 
  exists cs, file_dag (GetDagNode n) cs /\ concat cs = concat (concat css) /\ solid cs = solid (concat css).
Proof.
  intros H Hc. assert (Hd : FSNodeFromBytes (f_bytes n) = Ok (f_file n)) by (eapply unmarshal_marshal; [apply H|exact Hc]).
  pose proof (h_links _ _ H) as F. unfold GetDagNode. destruct (f_links n) as [|l ls] eqn:El.
  - inversion F; subst. exists [getData (f_file n)]. split; [|rewrite (h_data _ _ H); split; reflexivity].
    econstructor; eauto; try apply H. rewrite (h_data _ _ H). apply (h_size _ _ H).
  - exists (concat css). split; [|split; reflexivity]. rewrite <- El. econstructor; eauto; try apply H. rewrite El. discriminate.
Qed.

Lemma holds_open p b ls cs : file_dag (NProto p b ls) cs ->
  (ls = [] -> forall fs, FSNodeFromBytes b = Ok fs -> getData fs = []) ->
  exists n css, NewFSNFromDag p b ls = Ok n /\ holds n css /\ concat (concat css) = concat cs /\ GetDagNode n = NProto p b ls /\
    f_links n = ls /\ f_prefix n = p /\ FSNodeFromBytes b = Ok (f_file n) /\ solid (concat css) = solid cs.
Proof.
  intros H Hd. inversion H as [|? ? fs Hf Ht Hb Hs|? ? fs ? css Hne Hu Hf Ht Hda HF Hb Hs]; subst.
  - specialize (Hd eq_refl fs Hf). exists (mkFsn p b [] fs), []. unfold NewFSNFromDag. rewrite Hf. cbn.
    split; [reflexivity|]. split; [|rewrite Hd; auto 10]. destruct (unmarshal_good b fs Hf) as [Hg [t Ht']].
    constructor; cbn; auto; try congruence.
  - exists (mkFsn p b ls fs), css. unfold NewFSNFromDag. rewrite Hf. cbn.
    split; [reflexivity|]. split; [|auto 10]. destruct (unmarshal_good b fs Hf) as [Hg [t Ht']].
    constructor; cbn; auto; congruence.
Qed.

(** ** What extending a node means *)

Definition below (n m : node) : Prop := exists l, In l (node_links n) /\ reach (lto l) m.
(** The store grows children first, apart from blocks in [B]. *)
Definition wupf (B : node -> Prop) (w w' : world) : Prop :=
  wgrow w w' /\ exists a, w_added w' = w_added w ++ a /\ children_first B a.
Lemma wupf_refl B w : wupf B w w.
Proof. split; [apply wgrow_refl|]. exists []. split; [now rewrite app_nil_r|apply cf_nil]. Qed.
Lemma wups_wupf B w w' : wups w w' -> wupf B w w'.
Proof. intros (G & a & E & H). split; [exact G|]. exists a. split; [exact E|]. eapply cf_mono; [|exact H]. contradiction. Qed.

Record extended (n0 : fsn) (d0 : db) (css0 : list (list bytes)) (n : fsn) (d : db) (css : list (list bytes))
  (new : list bytes) (added : list xnode) : Prop := {
  ex_holds : holds n css;
  ex_content : concat (concat css) = concat (concat css0) ++ concat new;
  ex_step : db_step d0 d new added;
  ex_below : blocks_from (GetDagNode n0) (GetDagNode n) added;
  ex_exact : links_exact (f_links n0) -> links_exact (f_links n);
  ex_prefix : f_prefix n = f_prefix n0;
  ex_type : getType (f_file n) = getType (f_file n0);
  ex_limit : Forall (fun c => zlen c <= BlockSizeLimit) new;
  ex_entries : fs_entries added = entries d0 new;
  ex_up : children_first (below (GetDagNode n0)) added;
  ex_solid : solid (concat css) = solid (concat css0) ++ solid new
}.

Lemma blocks_from_refl n : blocks_from n n [].
Proof. intros l m Hl Hr. left. eauto. Qed.
Lemma blocks_from_trans a b c x y : blocks_from a b x -> blocks_from b c y -> blocks_from a c (x ++ y).
Proof.
  intros H1 H2 l m Hl Hr. rewrite map_app. destruct (H2 l m Hl Hr) as [(l1 & Hl1 & Hr1)|H].
  - destruct (H1 l1 m Hl1 Hr1) as [H|H]; [now left|]. right. apply in_or_app. now left.
  - right. apply in_or_app. now right.
Qed.

Lemma extended_refl n d css : holds n css -> 0 <= db_offset d < two64 -> extended n d css n d css [] [].
Proof.
  intros H Ho. constructor; auto.
  - cbn. now rewrite app_nil_r.
  - now apply db_step_refl.
  - apply blocks_from_refl.
  - unfold entries. now destruct (_ && _).
  - apply cf_nil.
  - cbn. now rewrite app_nil_r.
Qed.

Lemma cf_extended n0 n1 a1 a2 : blocks_from n0 n1 a1 -> children_first (below n0) a1 -> children_first (below n1) a2 ->
  children_first (below n0) (a1 ++ a2).
Proof. intros Hb H1 H2. apply cf_app; [exact H1|]. eapply cf_mono; [|exact H2]. intros m (l & Hl & Hr). exact (Hb l m Hl Hr). Qed.

Lemma extended_trans n0 d0 c0 n1 d1 c1 n2 d2 c2 s1 s2 a1 a2 :
  extended n0 d0 c0 n1 d1 c1 s1 a1 -> extended n1 d1 c1 n2 d2 c2 s2 a2 ->
  extended n0 d0 c0 n2 d2 c2 (s1 ++ s2) (a1 ++ a2).
Proof.
  intros H1 H2. constructor.
  - apply H2.
  - rewrite (ex_content _ _ _ _ _ _ _ _ H2), (ex_content _ _ _ _ _ _ _ _ H1), concat_app, app_assoc. reflexivity.
  - eapply db_step_trans; [apply H1|apply H2].
  - eapply blocks_from_trans; [apply H1|apply H2].
  - intros X. apply H2, H1, X.
  - rewrite (ex_prefix _ _ _ _ _ _ _ _ H2). apply H1.
  - rewrite (ex_type _ _ _ _ _ _ _ _ H2). apply H1.
  - apply Forall_app. split; [apply H1|apply H2].
  - rewrite fs_entries_app, (ex_entries _ _ _ _ _ _ _ _ H1), (ex_entries _ _ _ _ _ _ _ _ H2).
    symmetry. eapply entries_app. apply H1.
  - eapply cf_extended; [apply H1|apply H1|apply H2].
  - rewrite (ex_solid _ _ _ _ _ _ _ _ H2), (ex_solid _ _ _ _ _ _ _ _ H1), solid_app, app_assoc. reflexivity.
Qed.

Lemma grown_extended n0 d0 c0 n d css a : holds n0 c0 -> grown n0 d0 n d css a ->
  extended n0 d0 c0 n d (c0 ++ css) (concat css) a.
Proof.
  intros H G. destruct (gr_links _ _ _ _ _ _ G) as (ls & El & U & F & X & A). constructor.
  - eapply grown_holds; eassumption.
  - rewrite !concat_app. reflexivity.
  - apply G.
  - intros l m Hl Hr. cbn in *. rewrite El in Hl. apply in_app_or in Hl as [Hl|Hl]; [left; eauto|].
    right. exact (links_in_reach _ _ _ _ A Hl Hr).
  - intros Y. rewrite El. apply Forall_app. auto.
  - apply G.
  - unfold getType. now rewrite (gr_type _ _ _ _ _ _ G).
  - apply G.
  - apply G.
  - eapply cf_mono; [|eapply links_in_first, A]. contradiction.
  - now rewrite concat_app, solid_app.
Qed.

(** The blocks on the right edge of [n] can be fetched. *)
Definition edge_ok (k : Z) (n : fsn) (w : world) : Prop := forall m, edge k (f_links n) m -> dserv_get w m = Ok m.

Lemma get_iff w m : dserv_get w m = Ok m <-> stored w m = true /\ w_getok w m = true.
Proof. unfold dserv_get. destruct (stored w m), (w_getok w m); cbn; split; try discriminate; try (intros [? ?]; discriminate); auto. Qed.

Lemma get_grow w w' m : wgrow w w' -> dserv_get w m = Ok m -> dserv_get w' m = Ok m.
Proof.
  intros ((a & Ea) & E1 & _ & E2) H. apply get_iff in H as [H1 H2]. apply get_iff. rewrite E2. split; [|exact H2].
  unfold stored in *. rewrite E1, Ea, existsb_app. apply Bool.orb_true_iff in H1 as [-> | ->]; [reflexivity|]. now rewrite !Bool.orb_true_r.
Qed.
Lemma edge_grow k n w w' : wgrow w w' -> edge_ok k n w -> edge_ok k n w'.
Proof. intros H E m Hm. eapply get_grow; [exact H|auto]. Qed.
Lemma edge_small k ls m : edge k ls m -> k < zlen ls.
Proof. now destruct 1. Qed.
Lemma edge_none k n w : zlen (f_links n) <= k -> edge_ok k n w.
Proof. intros H m Hm. apply edge_small in Hm. lia. Qed.

(** The links and the blocks that have been added. *)
Definition purely (n : fsn) (d : db) (n' : fsn) (d' : db) : Prop :=
  exists more a, f_links n' = f_links n ++ more /\ w_added (db_w d') = w_added (db_w d) ++ a /\ links_in more a.
Definition grows (k : Z) (n : fsn) (d : db) (n' : fsn) (d' : db) : Prop :=
  exists a, w_added (db_w d') = w_added (db_w d) ++ a /\ grew k (f_links n) (f_links n') (map fst a).
Lemma purely_same n d d' : w_added (db_w d') = w_added (db_w d) -> purely n d n d'.
Proof. intros E. exists [], []. rewrite !app_nil_r. split; [reflexivity|]. split; [exact E|reflexivity]. Qed.
Lemma purely_trans n0 d0 n1 d1 n2 d2 : purely n0 d0 n1 d1 -> purely n1 d1 n2 d2 -> purely n0 d0 n2 d2.
Proof.
  intros (m1 & a1 & E1 & F1 & L1) (m2 & a2 & E2 & F2 & L2). exists (m1 ++ m2), (a1 ++ a2).
  rewrite E2, E1, F2, F1, !app_assoc. split; [reflexivity|]. split; [reflexivity|]. now apply links_in_app.
Qed.
Lemma grown_purely n d n' d' css a : grown n d n' d' css a -> purely n d n' d'.
Proof. intros G. destruct (gr_links _ _ _ _ _ _ G) as (ls & El & _ & _ & _ & A). exists ls, a. split; [exact El|]. split; [apply G|exact A]. Qed.
Lemma purely_grows k n d n' d' : purely n d n' d' -> grows k n d n' d'.
Proof. intros (more & a & E & F & L). exists a. split; [exact F|]. rewrite <- L, E. constructor. Qed.
Lemma grows_purely k n0 d0 n1 d1 n2 d2 : grows k n0 d0 n1 d1 -> purely n1 d1 n2 d2 -> grows k n0 d0 n2 d2.
Proof.
  intros (a1 & F1 & G) (m2 & a2 & E2 & F2 & L2). exists (a1 ++ a2). split; [now rewrite F2, F1, app_assoc|].
  rewrite E2, map_app, <- L2. clear -G. inversion G as [ls more Els Els' Ea|ls l l' more a Hk Hg Els Els' Ea]; subst.
  - rewrite <- app_assoc, <- flat_map_app. constructor.
  - rewrite <- !app_assoc. cbn [app]. rewrite <- flat_map_app. now constructor.
Qed.

(** [R] is what the store must provide. *)
Definition epost {A} (R : Prop) (n0 : fsn) (d0 : db) (c0 : list (list bytes)) (Q : A -> fsn -> db -> Prop) (r : res A * (fsn * db)) : Prop :=
  match r with
  | (Ok x, (n, d)) => exists css new added, extended n0 d0 c0 n d css new added /\ Q x n d
  | (Err _, (_, d)) => ~ (faultless d0 /\ R) /\ wupf (below (GetDagNode n0)) (db_w d0) (db_w d)
  | (Panic, _) => False
  | (Fuel, _) => False
  end.

Lemma epost_weaken {A} R n0 d0 c0 (Q Q' : A -> fsn -> db -> Prop) r : epost R n0 d0 c0 Q r ->
  (forall x n d css new a, extended n0 d0 c0 n d css new a -> Q x n d -> Q' x n d) -> epost R n0 d0 c0 Q' r.
Proof. destruct r as [[x|e| |] [n d]]; cbn; auto. intros (css & new & a & H & K) HQ. exists css, new, a. eauto. Qed.

Lemma epost_from {A} R n0 d0 c0 n d css new a (Q : A -> fsn -> db -> Prop) r :
  extended n0 d0 c0 n d css new a -> epost R n d css Q r -> epost R n0 d0 c0 Q r.
Proof.
  intros E K. destruct r as [[y|e| |] [n' d']]; cbn [epost] in *; auto.
  - destruct K as (c2 & s2 & a2 & E2 & HQ2). exists c2, (new ++ s2), (a ++ a2). split; [|assumption].
    eapply extended_trans; eassumption.
  - destruct K as [K1 K2]. split.
    + intros [F HR]. apply K1. split; [eapply faultless_step; [apply E|exact F]|exact HR].
    + destruct K2 as (G & a2 & E2 & U2). split; [eapply wgrow_trans; [eapply db_step_wgrow, E|exact G]|].
      exists (a ++ a2). split; [now rewrite E2, (st_added _ _ _ _ (ex_step _ _ _ _ _ _ _ _ E)), app_assoc|].
      eapply cf_extended; [apply E|apply E|exact U2].
Qed.

Lemma epost_bind {A B} R n0 d0 c0 Q Q' (m : M (fsn * db) A) (k : A -> M (fsn * db) B) :
  epost R n0 d0 c0 Q (m (n0, d0)) ->
  (forall x n d css new a, extended n0 d0 c0 n d css new a -> Q x n d -> epost R n d css Q' (k x (n, d))) ->
  epost R n0 d0 c0 Q' (bind m k (n0, d0)).
Proof.
  intros H K. unfold bind. destruct (m (n0, d0)) as [[x|e| |] [n d]]; cbn [epost] in *; auto.
  destruct H as (css & new & a & E & HQ). eapply epost_from; [exact E|]. eapply K; eassumption.
Qed.

Lemma epost_ret {A} R n d css (Q : A -> fsn -> db -> Prop) x : holds n css -> 0 <= db_offset d < two64 -> Q x n d ->
  epost R n d css Q (ret x (n, d)).
Proof. intros H Ho HQ. cbn. exists css, [], []. split; [now apply extended_refl|exact HQ]. Qed.

Lemma gpost_epost R n d css (Q : fsn -> db -> list (list bytes) -> Prop) (Q' : unit -> fsn -> db -> Prop) r : holds n css -> gpost n d Q r ->
  (forall n' d' c', purely n d n' d' -> Q n' d' c' -> Q' tt n' d') -> epost R n d css Q' r.
Proof.
  intros H G K. destruct r as [[[]|e| |] [n' d']]; cbn in *; auto.
  - destruct G as (c' & a & G & HQ). exists (css ++ c'), (concat c'), a. split; [now apply grown_extended|]. eapply K; [eapply grown_purely, G|exact HQ].
  - destruct G as [G1 G2]. split; [tauto|now apply wups_wupf].
Qed.

Lemma extended_prepare n d css : holds n css -> 0 <= db_offset d < two64 ->
  extended n d css n (prepareNext d) css [] [].
Proof.
  intros H Ho. pose proof (extended_refl n d css H Ho) as E. destruct E. constructor; auto. now apply db_step_prepare.
Qed.

Lemma done_epost R n d css : holds n css -> 0 <= db_offset d < two64 ->
  epost R n d css (fun b n' d' => n' = n /\ d' = prepareNext d /\ (b = true <-> pend d' = [])) (on_db Done (n, d)).
Proof.
  intros H Ho. unfold on_db. cbn [snd fst]. rewrite Done_spec. cbn. exists css, [], [].
  split; [now apply extended_prepare|]. split; [reflexivity|]. split; [reflexivity|].
  rewrite pend_prepare. destruct (pend d); split; congruence.
Qed.

Lemma ext_shorter n0 d0 c0 n d css new a : extended n0 d0 c0 n d css new a -> (length (pend d) <= length (pend d0))%nat.
Proof. intros E. rewrite (st_pend _ _ _ _ (ex_step _ _ _ _ _ _ _ _ E)), app_length. lia. Qed.
Lemma ext_cfg n0 d0 c0 n d css new a : extended n0 d0 c0 n d css new a -> cfg d = cfg d0.
Proof. intros E. eapply cfg_step, E. Qed.
Lemma ext_off n0 d0 c0 n d css new a : extended n0 d0 c0 n d css new a -> 0 <= db_offset d < two64.
Proof. intros E. eapply db_step_off, E. Qed.

(** ** Removing and putting back the last link *)

Lemma ztake_last {A} (l : list A) x : ztake (zlen (l ++ [x]) - 1) (l ++ [x]) = l.
Proof.
  rewrite zlen_app, zlen_cons, zlen_nil. replace (zlen l + (1 + 0) - 1) with (zlen l) by lia.
  rewrite ztake_app_l by lia. apply ztake_all. lia.
Qed.
Lemma zdrop_last {A} (l : list A) x : zdrop (zlen (l ++ [x]) - 1 + 1) (l ++ [x]) = [].
Proof. apply zdrop_all. lia. Qed.

Lemma Forall2_snoc_inv {A B} (R : A -> B -> Prop) l x m : Forall2 R (l ++ [x]) m ->
  exists m' y, m = m' ++ [y] /\ Forall2 R l m' /\ R x y.
Proof.
  intros H. apply Forall2_app_inv_l in H as (m1 & m2 & H1 & H2 & ->). inversion H2 as [|? y ? ? Hy Hn]; subst. inversion Hn; subst.
  exists m1, y. auto.
Qed.

Lemma remove_last n css ls l : holds n css -> f_links n = ls ++ [l] ->
  exists n1 css1 cs, RemoveChild (fNumChildren n - 1) n = Ok n1 /\ css = css1 ++ [cs] /\ holds n1 css1 /\ file_dag (lto l) cs /\
    f_links n1 = ls /\ f_prefix n1 = f_prefix n /\ getType (f_file n1) = getType (f_file n).
Proof.
  intros H El. pose proof (h_links _ _ H) as F. rewrite El, map_app in F. cbn [map] in F.
  apply Forall2_snoc_inv in F as (css1 & cs & -> & F & Hcs).
  pose proof (h_blocks _ _ H) as Hb. rewrite map_app in Hb. cbn [map] in Hb.
  assert (Hn : fNumChildren n = zlen (f_links n)) by (eapply holds_num, H).
  assert (Hl : zlen (d_blocksizes (f_file n)) = fNumChildren n) by reflexivity.
  assert (Hz : fNumChildren n = zlen ls + 1) by (rewrite Hn, El, zlen_app, zlen_cons, zlen_nil; lia).
  pose proof (zlen_nonneg ls) as Hp.
  unfold RemoveChild, RemoveBlockSize. rewrite Hl.
  destruct ((fNumChildren n - 1 <? 0) || (fNumChildren n <=? fNumChildren n - 1)) eqn:Eb; [lia|].
  assert (Hm : zlen (map csize css1) = zlen ls).
  { unfold zlen. rewrite map_length. pose proof (Forall2_len _ _ _ F) as E. rewrite map_length in E. lia. }
  assert (En : nth_error (d_blocksizes (f_file n)) (Z.to_nat (fNumChildren n - 1)) = Some (mod64 (zlen (concat cs)))).
  { rewrite Hb, nth_error_app2 by (unfold zlen in *; lia).
    replace (Z.to_nat (fNumChildren n - 1) - length (map csize css1))%nat with 0%nat by (unfold zlen in *; lia). reflexivity. }
  rewrite En, UpdateFilesize_eq. cbn [rbind]. destruct (zlen (f_links n) <=? fNumChildren n - 1) eqn:Ec; [lia|].
  cbn [set_filesize d_blocksizes].
  assert (T1 : ztake (fNumChildren n - 1) (d_blocksizes (f_file n)) ++ zdrop (fNumChildren n - 1 + 1) (d_blocksizes (f_file n)) = map csize css1).
  { rewrite <- Hl, Hb, ztake_last, zdrop_last, app_nil_r. reflexivity. }
  assert (T2 : ztake (fNumChildren n - 1) (f_links n) ++ zdrop (fNumChildren n - 1 + 1) (f_links n) = ls).
  { rewrite Hn, El, ztake_last, zdrop_last, app_nil_r. reflexivity. }
  rewrite T1, T2. eexists _, css1, cs. split; [reflexivity|]. split; [reflexivity|]. split; [|cbn; auto].
  assert (Es : u64 (getFilesize (f_file n) + i64 (- i64 (mod64 (zlen (concat cs))))) = mod64 (zlen (concat (concat css1)))).
  { unfold getFilesize. rewrite (h_size _ _ H). rewrite u64_add_r.
    assert (El2 : zlen (concat (concat (css1 ++ [cs]))) = zlen (concat (concat css1)) + zlen (concat cs)).
    { rewrite concat_app, zlen_concat_app. cbn [concat]. now rewrite app_nil_r. }
    rewrite El2. generalize (zlen (concat (concat css1))) (zlen (concat cs)). intros a b.
    unfold mod64, u64, i64, two63, two64. lia. }
  rewrite Es. constructor; cbn [f_links f_file set_blocksizes set_filesize d_blocksizes d_filesize d_type]; try apply H; auto.
  - pose proof (h_unnamed _ _ H) as U. rewrite El in U. apply Forall_app in U. apply U.
  - apply good_blocks; [apply H|apply csizes_range|apply u64_range].
Qed.

Lemma AddChild_eq n x sz d : AddChild (x, None) sz (n, d) =
  let (r, d') := Add (x, None) d in (r, (with_child n x sz, d')).
Proof. reflexivity. Qed.

Lemma AddChild_holds n css x cs sz : holds n css -> file_dag x cs -> sz = mod64 (zlen (concat cs)) ->
  holds (with_child n x sz) (css ++ [cs]).
Proof.
  intros H Hx Hs. unfold with_child. rewrite AddBlockSize_eq. unfold make_link. rewrite (file_dag_seal _ _ Hx).
  assert (Hb : d_blocksizes (f_file n) ++ [sz] = map csize (css ++ [cs])) by (rewrite map_app, (h_blocks _ _ H), Hs; reflexivity).
  assert (Hz : u64 (getFilesize (f_file n) + sz) = mod64 (zlen (concat (concat (css ++ [cs]))))).
  { unfold getFilesize. rewrite (h_size _ _ H), concat_app, zlen_concat_app. cbn [concat]. rewrite app_nil_r, Hs.
    unfold mod64, u64, two64. lia. }
  rewrite Hb, Hz. constructor; cbn [f_links f_file set_blocksizes set_filesize d_blocksizes d_filesize d_type]; try apply H; auto.
  - apply Forall_app. split; [apply H|]. repeat constructor.
  - rewrite map_app. apply Forall2_app; [apply H|]. repeat constructor. exact Hx.
  - apply good_blocks; [apply H|apply csizes_range|apply u64_range].
Qed.

Lemma height_child p b ls l : In l ls -> (S (height (lto l)) <= height (NProto p b ls))%nat.
Proof.
  intros H. cbn [height]. apply le_n_S. induction ls as [|x ls IH]; [destruct H|].
  cbn [fold_right]. destruct H as [->|H]; [lia|]. specialize (IH H). lia.
Qed.

(** ** Shapes *)

Lemma loose_mono k r leaf inner D D' n : loose k r leaf inner D n -> D' = -1 \/ (1 <= D <= D') -> loose k r leaf inner D' n.
Proof.
  intros H HD. inversion H as [? ? H1 H2 H3 H4]; subst. constructor; auto.
  intros i l Hn Hi. destruct HD as [->|HD]; [now left|]. destruct (H3 i l Hn Hi); [lia|]. right. lia.
Qed.

Lemma loose_inv k r leaf inner D n : loose k r leaf inner D n -> inner n /\
  (forall i l, nth_error (node_links n) i = Some l -> Z.of_nat i < k -> leaf (lto l)) /\
  (forall i l, nth_error (node_links n) i = Some l -> k <= Z.of_nat i -> D = -1 \/ layer k r i < D) /\
  (forall i l, nth_error (node_links n) i = Some l -> k <= Z.of_nat i -> loose k r leaf inner (layer k r i + 1) (lto l)).
Proof. inversion 1. auto. Qed.

Lemma trickle_loose k r (leaf leaf' inner inner' : node -> Prop) : 1 <= r ->
  (forall n, leaf n -> leaf' n) -> (forall n, inner n -> inner' n) ->
  forall n D, trickle k r leaf inner D n -> loose k r leaf' inner' D n.
Proof.
  intros Hr Hl Hi. induction n as [p d|p d ls IH] using node_ind'; intros D H; inversion H as [? ? H1 H2 H3 H4]; subst; constructor; auto.
  - eauto.
  - intros i l Hn. destruct i; discriminate.
  - eauto.
  - intros i l Hn Hle. rewrite Forall_forall in IH. cbn [node_links] in *.
    assert (1 <= layer k r i) by (unfold layer; pose proof (Z.div_pos (Z.of_nat i - k) r); lia).
    apply loose_mono with (D := layer k r i); [|right; lia]. apply IH; [eapply nth_error_In, Hn|]. eauto.
Qed.

Lemma nth_error_last {A} (ls : list A) l : nth_error (ls ++ [l]) (length ls) = Some l.
Proof. rewrite nth_error_app2 by lia. now rewrite Nat.sub_diag. Qed.

Lemma loose_appendable k r raw (pl pi : prefix -> Prop) : 1 <= k ->
  forall n D, loose k r (trickle_leaf raw pl) (trickle_inner pi) D n -> appendable k n.
Proof.
  intros Hk. induction n as [p d|p d ls IH] using node_ind'; intros D H; inversion H as [? ? H1 H2 H3 H4]; subst.
  - destruct H1 as (q & b & ls & f & E & _). discriminate.
  - destruct H1 as (q & b & ls' & f & E & Hq & Hf & Ht & Hd). injection E as <- <- <-.
    destruct ls as [|l ls _] using rev_ind; [eapply ap_empty; eauto|].
    apply ap_links. intros Hlt. rewrite Forall_app in IH. destruct IH as [_ IH]. inversion IH as [|? ? IHl _]; subst.
    eapply IHl. apply (H4 (length ls) l); [apply nth_error_last|].
    rewrite zlen_app, zlen_cons, zlen_nil in Hlt. unfold zlen in Hlt. lia.
Qed.

(** ** The append functions *)

Section Append.
  Variable c : bool * Z * option prefix * bool.
  Let k := snd (fst (fst c)).
  Let raw := fst (fst (fst c)).
  Let bu := snd (fst c).
  Hypothesis Hk : 1 <= k.
  Variable fuel : nat.
  (** What the store must provide. *)
  Variable R : Prop.
  (** The shape: what leaves are, and the prefixes of inner nodes. *)
  Variable leaf : node -> Prop.
  Variable pi : prefix -> Prop.
  Hypothesis Hleaf : forall x, leaf_of raw bu TRaw x -> leaf x.
  Hypothesis Hpi : pi (proto_prefix bu).
  Let lse := loose k depthRepeat leaf (trickle_inner pi).
  Notation lay := (layer k depthRepeat).

  Definition lim (D : Z) (i : nat) : Prop := D = -1 \/ lay i < D.
  Definition lkids (D : Z) (n : fsn) : Prop :=
    (forall i l, nth_error (f_links n) i = Some l -> Z.of_nat i < k -> leaf (lto l)) /\
    (forall i l, nth_error (f_links n) i = Some l -> k <= Z.of_nat i -> lim D i) /\
    (forall i l, nth_error (f_links n) i = Some l -> k <= Z.of_nat i -> lse (lay i + 1) (lto l)).

  Lemma lkids_leaf D n x sz : lkids D n -> zlen (f_links n) < k -> seal x = x -> leaf x -> lkids D (with_child n x sz).
  Proof.
    intros (H1 & H2 & H3) Hn Hs Hx. unfold lkids, with_child, zlen in *. cbn [f_links]. unfold make_link. rewrite Hs.
    split; [|split]; intros i l Hi Hik; apply nth_error_snoc in Hi as [[Hi Hi2]|[-> ->]]; eauto; lia.
  Qed.
  Lemma lkids_sub D n x sz j : lkids D n -> k <= zlen (f_links n) -> lim D (length (f_links n)) -> 1 <= j <= lay (length (f_links n)) + 1 ->
    seal x = x -> lse j x -> lkids D (with_child n x sz).
  Proof.
    intros (H1 & H2 & H3) Hn Hlim Hj Hs Hx. unfold lkids, with_child, zlen in *. cbn [f_links]. unfold make_link. rewrite Hs.
    split; [|split]; intros i l Hi Hik; apply nth_error_snoc in Hi as [[Hi Hi2]|[-> ->]]; eauto.
    - lia.
    - cbn [lto]. apply loose_mono with (D := j); [exact Hx|]. right. lia.
  Qed.

  Lemma fill0 f s : fillTrickleRec f 0 s = fillTrickleRec f 1 s.
  Proof. destruct f as [|f]; [reflexivity|]. cbn [fillTrickleRec]. destruct f; reflexivity. Qed.
  Lemma sub0 f d : new_subtree f 0 d = new_subtree f 1 d.
  Proof. unfold new_subtree, with_new. now rewrite fill0. Qed.

  Definition sub_post (j : Z) (x : node) (_ : list bytes) (_ : db) : Prop := seal x = x /\ lse (Z.max 1 j) x.

  Lemma subtree_ok L j : 0 <= j -> (L < fuel)%nat -> mk_ok c (sub_post j) (new_subtree fuel j) L.
  Proof.
    intros Hj HL. assert (Hpos : forall j, 1 <= j -> mk_ok c (sub_post j) (new_subtree fuel j) L).
    { clear j Hj. intros j Hj d Hc Ho Hp HLd. unfold new_subtree. eapply mk_post_weaken.
      - apply (with_new_made d (fillTrickleRec fuel j) (fun n' d' _ => tkids c n' d' /\ cfg d' = c /\ (j = -1 \/ fNumChildren n' <= k + depthRepeat * (j - 1)))). eapply gpost_weaken.
        + apply (fill_spec c Hk); auto. lia.
        + cbn beta. intros n' d' css a _ (H0 & Hc' & H1 & H2 & H3 & _). auto.
      - cbn beta. intros x sz cs d2 a Hm (n2 & css2 & a2 & En & Ecs & G2 & (Q1 & Q2 & Q3) & Q5 & Q6).
        split; [eapply file_dag_seal, Hm|].
        assert (Hg : good_data (f_file n2)) by (eapply grown_new_good; [reflexivity|left; reflexivity|exact G2]).
        destruct (tkids_done c n2 d2 j (f_bytes n2) (f_file n2)) as (E1 & E2 & E3 & E4); auto.
        + rewrite (gr_prefix _ _ _ _ _ _ G2). cbn. f_equal. now apply cfg_bu.
        + eapply unmarshal_marshal; [exact Hg|exact Q5].
        + unfold getType. rewrite (gr_type _ _ _ _ _ _ G2). reflexivity.
        + unfold getData. rewrite (gr_data _ _ _ _ _ _ G2). reflexivity.
        + intros E. destruct (gr_links _ _ _ _ _ _ G2) as (ls & El & _ & F & _). cbn in El. rewrite E in El. subst ls.
          inversion F. congruence.
        + rewrite Z.max_r by lia. rewrite En. unfold lse, GetDagNode. eapply trickle_loose; [| | |exact E1].
          * unfold depthRepeat. lia.
          * exact Hleaf.
          * intros x0 (b & ls & f & -> & Hf & Ht & Hd). exists (proto_prefix bu), b, ls, f. auto. }
    destruct (Z.eq_dec j 0) as [->|Hne]; [|apply Hpos; lia].
    intros d H1 H2 H3 H4. rewrite sub0. apply (Hpos 1); auto; lia.
  Qed.

  Lemma wc_links n x sz : zlen (f_links (with_child n x sz)) = zlen (f_links n) + 1.
  Proof. unfold with_child. cbn [f_links]. rewrite zlen_app, zlen_cons, zlen_nil. lia. Qed.

  Lemma add_any n d css m j : 0 <= j -> (length (pend d) < fuel)%nat -> cfg d = c -> 0 <= db_offset d < two64 -> holds n css ->
    epost R n d css (fun _ n' d' => purely n d n' d' /\ zlen (f_links n) <= zlen (f_links n') /\ (pend d' <> [] -> zlen (f_links n') = zlen (f_links n) + Z.of_nat m) /\
      forall D, k <= zlen (f_links n) -> (forall i, zlen (f_links n) <= Z.of_nat i < zlen (f_links n) + Z.of_nat m -> lim D i /\ j <= lay i + 1) ->
        lkids D n -> lkids D n')
      (add_children (new_subtree fuel j) m (n, d)).
  Proof.
    intros Hj HL Hc Ho H.
    set (I := fun (m' : nat) (n' : fsn) (_ : list (list bytes)) (_ : db) => zlen (f_links n') = zlen (f_links n) + Z.of_nat m - Z.of_nat m' /\ (m' <= m)%nat /\
      forall D, k <= zlen (f_links n) -> (forall i, zlen (f_links n) <= Z.of_nat i < zlen (f_links n) + Z.of_nat m -> lim D i /\ j <= lay i + 1) ->
        lkids D n -> lkids D n').
    eapply gpost_epost; [exact H| |].
    - apply (add_children_rule c (sub_post j) (new_subtree fuel j) I) with (css0 := []); auto.
      + intros m' n' css' d' x sz cs d1 d2 (I1 & I2 & I3) Hp' [S1 S2] _ _. split; [rewrite wc_links; lia|]. split; [lia|].
        intros D K1 K2 K3. specialize (I3 D K1 K2 K3).
        assert (Hi : lim D (length (f_links n')) /\ j <= lay (length (f_links n')) + 1) by (apply K2; unfold zlen in *; lia).
        assert (1 <= lay (length (f_links n'))).
        { unfold layer, depthRepeat. pose proof (Z.div_pos (Z.of_nat (length (f_links n')) - k) 4). unfold zlen in *. lia. }
        apply lkids_sub with (j := Z.max 1 j); auto; try lia. tauto.
      + now apply subtree_ok.
      + eapply holds_file_ok, H.
      + split; [lia|]. split; [lia|auto].
    - cbn beta. intros n' d' c' Hpu (m' & (I1 & I2 & I3) & Hor & _). split; [exact Hpu|]. split; [lia|]. split; [|exact I3]. intros Hp. destruct Hor; [lia|congruence].
  Qed.

  (** The number of links fits the start of the layer of depth [j], or of the one before. *)
  Definition at_layer (j : Z) (n : fsn) : Prop :=
    k <= zlen (f_links n) /\ k + depthRepeat * (j - 2) <= zlen (f_links n) <= k + depthRepeat * (j - 1).

  Lemma loop_any n d css j M : 1 <= j -> (length (pend d) < fuel)%nat -> cfg d = c -> 0 <= db_offset d < two64 -> holds n css ->
    (pend d <> [] -> at_layer j n) ->
    epost R n d css (fun _ n' d' => purely n d n' d' /\ (M = -1 -> pend d' = []) /\
       forall D, (D = -1 \/ (M <> -1 /\ M <= D)) -> lkids D n -> lkids D n')
      (depth_loop (new_subtree fuel) fuel j M (n, d)).
  Proof.
    intros Hj HL Hc Ho H Hat.
    set (Hd := fun (j : Z) (n' : fsn) (_ : list (list bytes)) (d' : db) => 1 <= j /\ (pend d' <> [] -> at_layer j n') /\
      forall D, (D = -1 \/ (M <> -1 /\ M <= D)) -> lkids D n -> lkids D n').
    set (I := fun (j : Z) (m : nat) (n' : fsn) (_ : list (list bytes)) (d' : db) => 1 <= j /\ (m <= 4)%nat /\
      (k <= zlen (f_links n') /\ k + 4 * (j - 2) <= zlen (f_links n') - (4 - Z.of_nat m) <= k + 4 * (j - 1)) /\
      forall D, (D = -1 \/ (M <> -1 /\ M <= D)) -> lkids D n -> lkids D n').
    eapply gpost_epost; [exact H| |].
    - apply (depth_loop_rule c (fun j x cs d => sub_post j x cs d /\ (M = -1 \/ j < M)) (new_subtree fuel) M Hd I) with (css0 := []); auto.
      + intros j' m n' css' d' x sz cs d1 d2 (I1 & I2 & I3 & I4) Hp' [[S1 S2] S3] _ _. split; [exact I1|]. split; [lia|].
        split; [rewrite wc_links; lia|]. intros D HD Hl. specialize (I4 D HD Hl).
        assert (j' - 1 <= lay (length (f_links n')) <= j').
        { unfold layer, depthRepeat, zlen in *. lia. }
        assert (1 <= lay (length (f_links n'))).
        { unfold layer, depthRepeat. pose proof (Z.div_pos (Z.of_nat (length (f_links n')) - k) 4). unfold zlen in *. lia. }
        apply lkids_sub with (j := Z.max 1 j'); auto; try lia. unfold lim. lia.
      + intros j' n' css' d' d1 (I1 & I2 & I3) E _. split; [exact I1|]. split; [rewrite E; exact I2|exact I3].
      + intros j' n' css' d' (I1 & I2 & I3) Hp'. destruct (I2 Hp') as [A1 A2]. split; [exact I1|]. unfold depthRepeat in *. 
        change (Z.to_nat 4) with 4%nat. split; [lia|]. split; [lia|exact I3].
      + intros j' m n' css' d' (I1 & I2 & I3 & I4) Hor. split; [lia|]. split; [|exact I4]. intros Hp'.
        destruct Hor as [->|Hor]; [|congruence]. unfold at_layer, depthRepeat. lia.
      + lia.
      + intros j' Hj' Hlt d' H1 H2 H3 H4. eapply mk_post_weaken; [apply (subtree_ok (length (pend d))); auto; lia|]. auto.
      + eapply holds_file_ok, H.
      + split; [exact Hj|]. split; [exact Hat|auto].
    - cbn beta. intros n' d' c' Hpu (j' & (_ & _ & HQ) & _ & _ & HM). auto.
  Qed.

  Lemma layer_any n d css : cfg d = c -> 0 <= db_offset d < two64 -> holds n css -> zlen (f_links n) <= k ->
    epost R n d css (fun _ n' d' => purely n d n' d' /\ zlen (f_links n') <= k /\ committed n' /\ (pend d' <> [] -> zlen (f_links n') = k) /\
       (forall D, lkids D n -> lkids D n')) (FillNodeLayer (n, d)).
  Proof.
    intros Hc Ho H Hn. destruct (holds_num _ _ H) as [Hnum _].
    eapply (gpost_epost R n d css (fun n' d' _ => zlen (f_links n') <= k /\ committed n' /\ (pend d' <> [] -> zlen (f_links n') = k) /\
       (forall D, lkids D n -> lkids D n'))); [exact H| |auto].
    unfold FillNodeLayer. eapply gpost_seq.
    - eapply (fill_loop_rule c (fun x _ _ => seal x = x /\ leaf x) (NewLeafDataNode TRaw)
        (fun n' _ d => cfg d = c /\ fNumChildren n' = zlen (f_links n') /\ zlen (f_links n') <= k /\ forall D, lkids D n -> lkids D n')).
      + intros n1 css1 d1 x sz cs d2 d3 (K1 & K2 & K3 & K4) Hlt _ [S1 S2] _ Ec. rewrite (cfg_k c d1 K1) in Hlt. fold k in Hlt.
        split; [congruence|]. rewrite fNum_child, wc_links. split; [lia|]. split; [lia|]. intros D Hl. apply lkids_leaf; auto. lia.
      + intros n1 css1 d1 d2 (K1 & K2) _ Ec. split; [congruence|assumption].
      + exact [].
      + apply le_n.
      + intros d1 Hc1 Ho1 Hp1 _. eapply mk_post_weaken; [apply leaf_made; auto; now right|].
        cbn beta. intros x sz cs d' a Hm [Hl _]. split; [eapply file_dag_seal, Hm|]. apply Hleaf. unfold raw, bu. rewrite <- Hc1. exact Hl.
      + exact Hc.
      + eapply holds_file_ok, H.
      + exact Ho.
      + auto.
    - intros n1 d1 css1 a G [(K1 & K2 & K3 & K4) Hor]. rewrite (cfg_k c d1 K1) in Hor. fold k in Hor. apply commit_spec.
      + eapply grown_file_ok, G.
      + eapply db_step_off, G.
      + rewrite (gr_type _ _ _ _ _ _ G). apply H.
      + intros b Hb. split; [exact K3|]. split; [exact Hb|]. split; [|exact K4]. intros Hp. cbn [f_links]. destruct Hor; [lia|congruence].
  Qed.

  (** The rightmost path below [n] can be followed. *)
  Definition path_ok (h : nat) (n : fsn) : Prop :=
    k < zlen (f_links n) -> exists ls l, f_links n = ls ++ [l] /\ appendable k (lto l) /\ (height (lto l) <= h)%nat.

  Definition rec_ok (h : nat) (rec : Z -> M (fsn * db) unit) : Prop :=
    forall m n d css, (length (pend d) < fuel)%nat -> cfg d = c -> 0 <= db_offset d < two64 -> holds n css ->
      (height (GetDagNode n) <= h)%nat -> path_ok h n -> (R -> edge_ok k n (db_w d)) ->
      epost R n d css (fun _ n' d' => grows k n d n' d' /\ forall D, D = -1 \/ m <= D -> lkids D n -> lkids D n') (rec m (n, d)).

  Lemma appendable_open x cs : appendable k x -> file_dag x cs ->
    exists p b ls n css, x = NProto p b ls /\ NewFSNFromDag p b ls = Ok n /\ holds n css /\ concat (concat css) = concat cs /\
      GetDagNode n = x /\ path_ok (height x) n /\ f_prefix n = p /\ FSNodeFromBytes b = Ok (f_file n) /\ solid (concat css) = solid cs.
  Proof.
    intros Ha Hf. destruct Ha as [p b fs Hb Hd|p b ls l Hl].
    - destruct (holds_open p b [] cs Hf) as (n & css & H1 & H2 & H3 & H4 & H5 & H6 & H7).
      { intros _ fs' E. congruence. }
      exists p, b, [], n, css. split; [reflexivity|]. split; [exact H1|]. split; [exact H2|]. split; [exact H3|]. split; [exact H4|].
      split; [|auto]. intros Hn. rewrite H5 in Hn. change (k < 0) in Hn. lia.
    - destruct (holds_open p b (ls ++ [l]) cs Hf) as (n & css & H1 & H2 & H3 & H4 & H5 & H6 & H7).
      { intros E. destruct ls; discriminate. }
      exists p, b, (ls ++ [l]), n, css. split; [reflexivity|]. split; [exact H1|]. split; [exact H2|]. split; [exact H3|]. split; [exact H4|].
      split; [|auto]. intros Hn. rewrite H5 in Hn. exists ls, l. split; [exact H5|].
      split; [auto|]. pose proof (height_child p b (ls ++ [l]) l ltac:(apply in_or_app; right; left; reflexivity)). lia.
  Qed.

  (** Putting a changed last child back. *)
  Lemma lkids_last D n ls l n2 x sz : f_links n = ls ++ [l] -> k < zlen (f_links n) -> f_links n2 = ls ++ [mkLink [] sz x] ->
    (lse (lay (length ls) + 1) (lto l) -> lse (lay (length ls) + 1) x) -> lkids D n -> lkids D n2.
  Proof.
    intros El Hn El2 Hx (H1 & H2 & H3). assert (Hln : k <= Z.of_nat (length ls)).
    { rewrite El, zlen_app, zlen_cons, zlen_nil in Hn. unfold zlen in Hn. lia. }
    assert (Hold : forall i l', nth_error ls i = Some l' -> nth_error (f_links n) i = Some l').
    { intros i l' Hi. rewrite El, nth_error_app1; [exact Hi|]. apply nth_error_Some. congruence. }
    assert (Hlast : nth_error (f_links n) (length ls) = Some l) by (rewrite El; apply nth_error_last).
    unfold lkids. rewrite El2.
    split; [|split]; intros i l' Hi Hik; apply nth_error_snoc in Hi as [[Hi Hi2]|[-> ->]]; eauto; try lia.
  Qed.

  Lemma fill_last rec h depth r n d css : rec_ok h rec -> 0 <= depth -> (length (pend d) < fuel)%nat -> cfg d = c ->
    0 <= db_offset d < two64 -> holds n css -> path_ok h n -> (R -> edge_ok k n (db_w d)) -> 0 <= r < 4 -> (k < zlen (f_links n) -> r = (zlen (f_links n) - k) mod 4 /\ depth <= (zlen (f_links n) - k) / 4 + 1) ->
    epost R n d css (fun _ n' d' => grows k n d n' d' /\ (zlen (f_links n) <= k -> purely n d n' d') /\
        (pend d' <> [] -> zlen (f_links n') = zlen (f_links n) + (if (zlen (f_links n) <=? k) || (r =? 0) then 0 else 4 - r)) /\
        (forall D, lkids D n -> lkids D n'))
      (appendFillLastChild fuel rec depth r (n, d)).
  Proof.
    intros Hrec Hd HL Hc Ho H Hp Hedge Hr Hdepth. unfold appendFillLastChild, get_fsn, get_db. unfold bind at 1 2. cbn [fst snd].
    destruct (holds_num _ _ H) as [Hn _].
    rewrite (cfg_k c d Hc). fold k. destruct (fNumChildren n <=? k) eqn:E; rewrite Hn in E.
    { apply epost_ret; auto. pose proof (purely_same n d d eq_refl) as Hs. split; [now apply purely_grows|]. split; [auto|]. split; [|auto]. rewrite E. cbn [orb]. lia. }
    destruct (Hp ltac:(lia)) as (ls & l & El & Ha & Hh). cbn zeta. destruct (Hdepth ltac:(lia)) as [Er Hdep].
    destruct (remove_last n css ls l H El) as (n1 & css1 & cs & Hrm & Ecss & H1 & Hcs & El1 & Ep1 & Et1).
    destruct (appendable_open (lto l) cs Ha Hcs) as (p & b & kls & ch & ccss & Ex & Hop & Hch & Ecc & Egd & Hpath & Epch & Efch & Escc).
    assert (Hget : GetChild (fNumChildren n - 1) n (db_w d) =
      match dserv_get (db_w d) (lto l) with Ok _ => Ok ch | Err e => Err e | Panic => Panic | Fuel => Fuel end).
    { unfold GetChild. destruct (fNumChildren n - 1 <? 0) eqn:E0; [lia|].
      rewrite Hn, El, nth_error_app2 by (rewrite zlen_app, zlen_cons, zlen_nil; unfold zlen; lia).
      rewrite zlen_app, zlen_cons, zlen_nil.
      replace (Z.to_nat (zlen ls + (1 + 0) - 1) - length ls)%nat with 0%nat by (unfold zlen; lia). cbn [nth_error].
      unfold dserv_get. destruct (stored (db_w d) (lto l) && w_getok (db_w d) (lto l)); cbn [rbind]; [|reflexivity].
      rewrite Ex. exact Hop. }
    rewrite Hget. unfold lift at 1. unfold bind at 1.
    destruct (dserv_get (db_w d) (lto l)) as [x|e| |] eqn:Eg.
    2:{ cbn [epost]. split; [|apply wupf_refl]. intros [_ HR]. rewrite (Hedge HR (lto l)) in Eg; [discriminate|].
        rewrite El. constructor. rewrite <- El. lia. }
    2:{ unfold dserv_get in Eg. destruct (_ && _); discriminate. }
    2:{ unfold dserv_get in Eg. destruct (_ && _); discriminate. }
    unfold bind at 1. unfold on_fsn. cbn [fst snd].
    specialize (Hrec (depth - 1) ch d ccss HL Hc Ho Hch). rewrite Egd in Hrec. specialize (Hrec Hh).
    assert (Hpath' : path_ok h ch).
    { intros Hlt. destruct (Hpath Hlt) as (ls' & l' & A1 & A2 & A3). exists ls', l'. split; [exact A1|]. split; [exact A2|]. lia. }
    specialize (Hrec Hpath').
    assert (Hedge' : R -> edge_ok k ch (db_w d)).
    { intros HR m Hm. apply (Hedge HR). rewrite El. apply ed_below; [rewrite <- El; lia|]. rewrite <- Egd. exact Hm. }
    specialize (Hrec Hedge').
    assert (Hbel : forall m, below (GetDagNode ch) m -> below (GetDagNode n) m).
    { intros m (l' & Hl' & Hm). rewrite Egd in Hl'. exists l. split; [cbn; rewrite El; apply in_or_app; right; now left|]. econstructor; eassumption. }
    destruct (rec (depth - 1) (ch, d)) as [[[]|e| |] [ch' d']]; cbn [epost] in Hrec; auto.
    2:{ cbn [epost]. destruct Hrec as [R1 (R2 & a & R3 & R4)]. split; [exact R1|]. split; [exact R2|]. exists a. split; [exact R3|].
        eapply cf_mono; [exact Hbel|exact R4]. }
    destruct Hrec as (ccss' & new & a & E1 & Hgrow & Hkids).
    rewrite Hrm. unfold lift at 1. unfold bind at 1. unfold set_fsn. unfold bind at 1. cbn [fst snd].
    destruct (must_marshal_ok (f_file ch') (h_some _ _ (ex_holds _ _ _ _ _ _ _ _ E1))) as (bb & _ & Hbb).
    assert (Hcm : Commit ch' = Ok (mkFsn (f_prefix ch') bb (f_links ch') (f_file ch'))) by (unfold Commit, GetBytes; rewrite Hbb; reflexivity).
    rewrite Hcm. unfold lift at 1. unfold bind at 1.
    set (ch2 := mkFsn (f_prefix ch') bb (f_links ch') (f_file ch')).
    assert (Hch2 : holds ch2 ccss') by (destruct (ex_holds _ _ _ _ _ _ _ _ E1); constructor; assumption).
    destruct (holds_dag ch2 ccss' Hch2 Hbb) as (cs2 & Hdag2 & Ecs2 & Escs2).
    assert (Hsz2 : fFileSize ch' = mod64 (zlen (concat cs2))).
    { unfold fFileSize, FileSize, size. change (f_file ch') with (f_file ch2). rewrite Ecs2.
      unfold getFilesize. rewrite (h_size _ _ Hch2). destruct (h_type _ _ Hch2) as [-> | ->]; reflexivity. }
    rewrite Hsz2. unfold bind at 1. rewrite AddChild_eq. unfold Add, dserv_add. cbn [fst snd].
    rewrite (file_dag_seal _ _ Hdag2).
    destruct (w_addok (db_w d') (w_calls (db_w d'))) eqn:Ea.
    2:{ cbn [epost]. pose proof (ex_step _ _ _ _ _ _ _ _ E1) as S1. split.
        - intros [[_ F] _]. rewrite (st_addok _ _ _ _ S1), F in Ea. discriminate.
        - split.
          + eapply wgrow_trans; [eapply db_step_wgrow, S1|]. cbn. split; [exists []; cbn; now rewrite app_nil_r|auto].
          + exists a. split; [apply S1|]. eapply cf_mono; [exact Hbel|apply E1]. }
    cbn iota beta.
    set (n2 := with_child n1 (GetDagNode ch2) (mod64 (zlen (concat cs2)))).
    set (d2 := db_set_w _ d').
    assert (Eln : f_links n2 = ls ++ [mkLink [] (node_size (GetDagNode ch2)) (GetDagNode ch2)]).
    { unfold n2, with_child. cbn [f_links]. rewrite El1. unfold make_link. now rewrite (file_dag_seal _ _ Hdag2). }
    assert (E2 : extended n d css n2 d2 (css1 ++ [cs2]) new (a ++ [(GetDagNode ch2, None)])).
    { pose proof (ex_step _ _ _ _ _ _ _ _ E1) as S1.
      constructor.
      - apply AddChild_holds; auto.
      - rewrite Ecss, !concat_app. cbn [concat]. rewrite !app_nil_r, Ecs2.
        pose proof (ex_content _ _ _ _ _ _ _ _ E1) as X. rewrite Ecc in X. unfold bytes in *. rewrite X, app_assoc. reflexivity.
      - destruct S1. constructor; unfold d2; cbn [db_set_w db_w db_raw db_maxlinks db_builder db_fs db_offset w_added w_has w_addok w_getok]; auto.
        rewrite st_added, app_assoc. reflexivity.
      - intros l' m Hl' Hm. change (In l' (f_links n2)) in Hl'. rewrite Eln in Hl'. rewrite map_app. apply in_app_or in Hl' as [Hl'|[<-|[]]].
        + left. exists l'. split; [|exact Hm]. cbn. rewrite El. apply in_or_app. now left.
        + cbn [lto] in Hm. inversion Hm as [|? l2 ? Hl2 Hm2]; subst.
          * right. apply in_or_app. right. now left.
          * destruct (ex_below _ _ _ _ _ _ _ _ E1 l2 m Hl2 Hm2) as [(l3 & Hl3 & Hm3)|Hin].
            -- left. exists l. split; [cbn; rewrite El; apply in_or_app; right; now left|]. rewrite Egd in Hl3. econstructor; eassumption.
            -- right. apply in_or_app. now left.
      - intros X. rewrite El in X. apply Forall_app in X as [X1 X2]. inversion X2 as [|? ? [_ X3] _]; subst.
        rewrite Eln. apply Forall_app. split; [exact X1|]. constructor; [|constructor]. cbn [lsize lto].
        assert (Xl : links_exact (f_links ch2)).
        { apply (ex_exact _ _ _ _ _ _ _ _ E1). apply tsizes_links in X3. rewrite <- Egd in X3. exact X3. }
        split; [now apply node_size_exact|now apply tsizes_node].
      - unfold n2. cbn. exact Ep1.
      - rewrite <- Et1. unfold n2, with_child. cbn [f_file]. rewrite AddBlockSize_eq. reflexivity.
      - apply E1.
      - rewrite fs_entries_app. cbn. rewrite app_nil_r. apply E1.
      - apply cf_snoc; [eapply cf_mono; [exact Hbel|apply E1]|]. cbn [fst]. intros l' Hl'.
        destruct (ex_below _ _ _ _ _ _ _ _ E1 l' (lto l') Hl' (reach_self _)) as [Hb|Hb]; [left; exact (Hbel _ Hb)|now right].
      - rewrite Ecss, !concat_app, !solid_app. cbn [concat]. rewrite !app_nil_r, Escs2.
        pose proof (ex_solid _ _ _ _ _ _ _ _ E1) as X. rewrite Escc in X. rewrite X, app_assoc. reflexivity. }
    assert (Hzls : zlen (f_links n) = zlen ls + 1) by (rewrite El, zlen_app, zlen_cons, zlen_nil; lia).
    assert (Hzn2 : zlen (f_links n2) = zlen (f_links n)) by (rewrite Eln, Hzls, zlen_app, zlen_cons, zlen_nil; lia).
    assert (Hk2 : forall D, lkids D n -> lkids D n2).
    { intros D. eapply lkids_last; [exact El|lia|exact Eln|]. intros Hold.
      apply loose_inv in Hold as (I1 & I2 & I3 & I4). destruct I1 as (q & b' & ls' & f & Eq & Hq & Hf & Ht & Hda).
      rewrite Ex in Eq. injection Eq as <- <- <-. rewrite Efch in Hf. apply Ok_inj in Hf. subst f.
      assert (Hlk : lkids (lay (length ls) + 1) ch).
      { rewrite <- Egd in I2, I3, I4. split; [exact I2|]. split; [exact I3|exact I4]. }
      assert (Hlk2 : lkids (lay (length ls) + 1) ch2).
      { apply Hkids; [|exact Hlk]. right. unfold layer, depthRepeat, zlen in *. lia. }
      destruct Hlk2 as (J1 & J2 & J3). constructor; cbn [GetDagNode node_links ch2 f_links]; auto.
      exists (f_prefix ch'), bb, (f_links ch'), (f_file ch'). split; [reflexivity|].
      split; [rewrite (ex_prefix _ _ _ _ _ _ _ _ E1), Epch; exact Hq|].
      split; [eapply unmarshal_marshal; [apply Hch2|exact Hbb]|].
      split; [rewrite (ex_type _ _ _ _ _ _ _ _ E1); exact Ht|apply Hch2]. }
    assert (Hgr2 : grows k n d n2 d2).
    { destruct Hgrow as (a0 & Fa & Ga). exists (a0 ++ [(GetDagNode ch2, None)]).
      split; [unfold d2; cbn [db_set_w db_w w_added]; rewrite Fa, app_assoc; reflexivity|].
      rewrite El, Eln, map_app. apply gw_edge with (more := []); [rewrite <- El; lia|]. cbn [lto]. rewrite <- Egd. exact Ga. }
    assert (Hgoal : epost R n2 d2 (css1 ++ [cs2]) (fun _ n' d' => grows k n d n' d' /\ (zlen (f_links n) <= k -> purely n d n' d') /\ (pend d' <> [] -> zlen (f_links n') = zlen (f_links n) + (if (zlen (f_links n) <=? k) || (r =? 0) then 0 else 4 - r)) /\
        (forall D, lkids D n -> lkids D n'))
      ((if r =? 0 then ret tt else add_children (new_subtree fuel depth) (Z.to_nat (depthRepeat - r))) (n2, d2))).
    { rewrite E. cbn [orb]. destruct (r =? 0) eqn:Er0.
      - apply epost_ret; [apply E2|eapply ext_off, E2|]. split; [exact Hgr2|]. split; [lia|]. split; [lia|exact Hk2].
      - eapply epost_weaken.
        + apply add_any; auto.
          * pose proof (ext_shorter _ _ _ _ _ _ _ _ E2). lia.
          * rewrite (ext_cfg _ _ _ _ _ _ _ _ E2). exact Hc.
          * eapply ext_off, E2.
          * apply E2.
        + cbn beta. intros _ n3 d3 css3 new3 a3 _ (A0 & A1 & A2 & A3). change (depthRepeat - r) with (4 - r) in A2, A3.
          split; [exact (grows_purely _ _ _ _ _ _ _ Hgr2 A0)|]. split; [lia|]. split.
          * intros Hp3. rewrite A2 by exact Hp3. lia.
          * intros D Hl. apply A3; [lia| |auto]. intros i Hi.
            assert (Hlay : lay i = lay (length ls)).
            { unfold layer, depthRepeat. f_equal. unfold zlen in *. lia. }
            split.
            -- unfold lim. rewrite Hlay. destruct Hl as (_ & L2 & _). apply (L2 (length ls) l); [rewrite El; apply nth_error_last|]. unfold zlen in *. lia.
            -- rewrite Hlay. unfold layer, depthRepeat, zlen in *. lia. }
    eapply epost_from; [exact E2|exact Hgoal].
  Qed.

  Lemma depth_info n : fNumChildren n = zlen (f_links n) ->
    trickleDepthInfo n k = (0, 0) /\ zlen (f_links n) < k \/
    exists q r, trickleDepthInfo n k = (q, r) /\ q = (zlen (f_links n) - k) / 4 + 1 /\ r = (zlen (f_links n) - k) mod 4 /\ k <= zlen (f_links n).
  Proof.
    intros Hn. unfold trickleDepthInfo. rewrite Hn. destruct (zlen (f_links n) <? k) eqn:E; [left; split; [reflexivity|lia]|].
    right. eexists _, _. split; [reflexivity|]. unfold depthRepeat. split; [reflexivity|]. split; [reflexivity|lia].
  Qed.

  Lemma path_small h n : zlen (f_links n) <= k -> path_ok h n.
  Proof. intros H H'. lia. Qed.

  (** The state before the last child is filled: depth and repeat number belong to the node. *)
  Definition depth_of (q r : Z) (n : fsn) (d : db) : Prop :=
    0 <= r < 4 /\ 1 <= q /\ (k < zlen (f_links n) -> q = (zlen (f_links n) - k) / 4 + 1 /\ r = (zlen (f_links n) - k) mod 4) /\
    (zlen (f_links n) <= k -> pend d <> [] -> zlen (f_links n) = k /\ q = 1).

  Lemma filled_layer q r n2 d2 n3 d3 : depth_of q r n2 d2 -> (pend d3 <> [] -> pend d2 <> []) ->
    (pend d3 <> [] -> zlen (f_links n3) = zlen (f_links n2) + (if (zlen (f_links n2) <=? k) || (r =? 0) then 0 else 4 - r)) ->
    pend d3 <> [] -> at_layer (q + 1) n3.
  Proof.
    intros (A0 & A1 & A2 & A3) Hp H Hp3. specialize (H Hp3). specialize (Hp Hp3). unfold at_layer, depthRepeat.
    destruct (zlen (f_links n2) <=? k) eqn:E1; cbn [orb] in H.
    - destruct (A3 ltac:(lia) Hp) as [B1 B2]. lia.
    - destruct (A2 ltac:(lia)) as [B1 B2]. destruct (r =? 0) eqn:E2; lia.
  Qed.

  Lemma ext_pend n0 d0 c0 n d css new a : extended n0 d0 c0 n d css new a -> pend d <> [] -> pend d0 <> [].
  Proof. intros E H. rewrite (st_pend _ _ _ _ (ex_step _ _ _ _ _ _ _ _ E)). destruct (pend d); [congruence|]. destruct (map _ _); discriminate. Qed.

  Lemma rec_spec : forall h, rec_ok h (appendRec fuel h).
  Proof.
    induction h as [|h IH]; intros m n d css HL Hc Ho H Hh Hp Hedge; [exfalso; cbn in Hh; lia|].
    cbn [appendRec]. destruct (m =? 0); [apply epost_ret; auto; split; [now apply purely_grows, purely_same|auto]|].
    eapply epost_bind; [now apply done_epost|]. cbn beta.
    intros dn n1 d1 css1 new1 a1 E1 (-> & -> & Hdn).
    pose proof (ext_shorter _ _ _ _ _ _ _ _ E1) as L1. pose proof (ext_cfg _ _ _ _ _ _ _ _ E1) as C1.
    pose proof (ext_off _ _ _ _ _ _ _ _ E1) as O1. pose proof (ex_holds _ _ _ _ _ _ _ _ E1) as H1.
    assert (W1 : w_added (db_w (prepareNext d)) = w_added (db_w d)).
    { rewrite (st_added _ _ _ _ (db_step_prepare d Ho)). apply app_nil_r. }
    assert (Hedge1 : R -> edge_ok k n (db_w (prepareNext d))).
    { intros HR. eapply edge_grow; [|exact (Hedge HR)]. eapply db_step_wgrow, (db_step_prepare d Ho). }
    set (d1 := prepareNext d) in *. clearbody d1.
    destruct dn; [apply epost_ret; auto; split; [now apply purely_grows, purely_same|auto]|].
    unfold get_fsn, get_db. unfold bind at 1 2. cbn [fst snd]. rewrite (cfg_k c d1) by congruence. fold k.
    destruct (holds_num _ _ H) as [Hnum _].
    assert (Hnew : exists q r, trickleDepthInfo n k = (q, r) /\
      epost R n d1 css1 (fun q' n' d' => depth_of q' r n' d' /\ path_ok h n' /\ (forall D, lkids D n -> lkids D n') /\
          purely n d1 n' d' /\ (k < zlen (f_links n') -> n' = n /\ d' = d1))
        ((if q =? 0 then do _ <- FillNodeLayer ;; ret 1 else ret q) (n, d1))).
    { destruct (depth_info n Hnum) as [[Ei Hlt]|(q & r & Ei & Hq & Hr & Hle)].
      - exists 0, 0. split; [exact Ei|]. change (0 =? 0) with true. cbn iota.
        eapply epost_bind; [apply layer_any; auto; [congruence|lia]|]. cbn beta.
        intros _ n2 d2 css2 new2 a2 E2 (K0 & K1 & K2 & K3 & K4). apply epost_ret; [apply E2|eapply ext_off, E2|].
        split; [|split; [now apply path_small|split; [exact K4|split; [exact K0|lia]]]]. split; [lia|]. split; [lia|]. split; [lia|]. auto.
      - exists q, r. split; [exact Ei|].
        pose proof (Z.div_pos (zlen (f_links n) - k) 4 ltac:(lia) ltac:(lia)) as Hpos.
        destruct (q =? 0) eqn:Eq; [lia|]. apply epost_ret; auto. split; [|split; [|split; [auto|split; [now apply purely_same|auto]]]].
        + split; [pose proof (Z.mod_pos_bound (zlen (f_links n) - k) 4); lia|]. split; [lia|]. split; [lia|]. intros K _.
          assert (E0 : zlen (f_links n) = k) by lia. split; [exact E0|]. rewrite Hq, E0, Z.sub_diag. reflexivity.
        + intros Hlt. destruct (Hp Hlt) as (ls & l & A1 & A2 & A3). exists ls, l. split; [exact A1|]. split; [exact A2|].
          pose proof (height_child (f_prefix n) (f_bytes n) (f_links n) l) as Hhc. rewrite A1 in Hhc at 1.
          specialize (Hhc ltac:(apply in_or_app; right; left; reflexivity)). unfold GetDagNode in Hh. lia. }
    destruct Hnew as (q & r & Ei & Hnew). rewrite Ei.
    eapply epost_bind; [exact Hnew|]. cbn beta. intros depth n2 d2 css2 new2 a2 E2 (Hq & Hp2 & Kid2 & Pu2 & Same2).
    assert (Pu1 : purely n d n2 d2) by exact (purely_trans _ _ _ _ _ _ (purely_same n d d1 W1) Pu2).
    assert (Hedge2 : R -> edge_ok k n2 (db_w d2)).
    { intros HR. destruct (Z_le_gt_dec (zlen (f_links n2)) k) as [Hle|Hgt]; [now apply edge_none|]. destruct (Same2 ltac:(lia)) as [-> ->]. auto. }
    pose proof (ext_shorter _ _ _ _ _ _ _ _ E2) as L2. pose proof (ext_cfg _ _ _ _ _ _ _ _ E2) as C2.
    destruct (depth =? m); [apply epost_ret; [apply E2|eapply ext_off, E2|split; [now apply purely_grows|auto]]|].
    pose proof Hq as (Q1 & Q2 & Q3 & Q4).
    eapply epost_bind.
    { apply (fill_last _ h); auto; [lia|lia|congruence|eapply ext_off, E2|apply E2|lia]. }
    cbn beta. intros _ n3 d3 css3 new3 a3 E3 (F0 & F0' & F1 & F2).
    assert (G3 : grows k n d n3 d3).
    { destruct (Z_le_gt_dec (zlen (f_links n2)) k) as [Hle|Hgt]; [apply purely_grows; eapply purely_trans; eauto|].
      destruct (Same2 ltac:(lia)) as [-> ->]. destruct F0 as (a0 & Fa & Ga). exists a0. split; [congruence|exact Ga]. }
    pose proof (ext_shorter _ _ _ _ _ _ _ _ E3) as L3. pose proof (ext_cfg _ _ _ _ _ _ _ _ E3) as C3.
    pose proof (filled_layer depth r n2 d2 n3 d3 Hq (ext_pend _ _ _ _ _ _ _ _ E3) F1) as Hat.
    eapply epost_bind; [apply done_epost; [apply E3|eapply ext_off, E3]|]. cbn beta.
    intros dn n4 d4 css4 new4 a4 E4 (-> & -> & Hdn4). cbn zeta. rewrite pend_prepare in Hdn4.
    pose proof (ext_shorter _ _ _ _ _ _ _ _ E4) as L4. pose proof (ext_cfg _ _ _ _ _ _ _ _ E4) as C4.
    assert (W4 : w_added (db_w (prepareNext d3)) = w_added (db_w d3)).
    { rewrite (st_added _ _ _ _ (db_step_prepare d3 (ext_off _ _ _ _ _ _ _ _ E3))). apply app_nil_r. }
    assert (G4 : grows k n d n3 (prepareNext d3)) by exact (grows_purely _ _ _ _ _ _ _ G3 (purely_same n3 d3 _ W4)).
    destruct (_ <? m) eqn:Elt; [|apply epost_ret; [apply E4|eapply ext_off, E4|auto]].
    eapply epost_weaken.
    - apply loop_any.
      + destruct dn; lia.
      + lia.
      + congruence.
      + eapply ext_off, E4.
      + apply E4.
      + rewrite pend_prepare. intros Hp3. destruct dn; [now destruct (Hp3 (proj1 Hdn4 eq_refl))|auto].
    - cbn beta. intros _ n5 d5 css5 new5 a5 E5 (Pu5 & _ & Kid5). split; [exact (grows_purely _ _ _ _ _ _ _ G4 Pu5)|]. intros D HD Hl. apply Kid5; [|auto]. destruct HD as [HD|HD]; [now left|]. right. destruct dn; lia.
  Qed.

  Lemma body_spec h n d css : (length (pend d) < fuel)%nat -> cfg d = c -> 0 <= db_offset d < two64 -> holds n css ->
    path_ok h n -> (R -> edge_ok k n (db_w d)) -> epost R n d css (fun _ n' d' => grows k n d n' d' /\ committed n' /\ pend d' = [] /\ (lkids (-1) n -> lkids (-1) n')) (append_body fuel h (n, d)).
  Proof.
    intros HL Hc Ho H Hp Hedge. unfold append_body, get_fsn, get_db. unfold bind at 1 2. cbn [fst snd].
    rewrite (cfg_k c d Hc). fold k. destruct (holds_num _ _ H) as [Hnum _].
    assert (Hnew : exists q r, trickleDepthInfo n k = (q, r) /\
      epost R n d css (fun o n' d' => (forall D, lkids D n -> lkids D n') /\ purely n d n' d' /\ (k < zlen (f_links n') -> n' = n /\ d' = d) /\
          match o with None => committed n' /\ pend d' = [] | Some q' => depth_of q' r n' d' /\ path_ok h n' end)
        ((if q =? 0 then do _ <- FillNodeLayer ;; do d1 <- on_db Done ;; ret (if d1 : bool then None else Some 1)
          else ret (Some q)) (n, d))).
    { destruct (depth_info n Hnum) as [[Ei Hlt]|(q & r & Ei & Hq & Hr & Hle)].
      - exists 0, 0. split; [exact Ei|]. change (0 =? 0) with true. cbn iota.
        eapply epost_bind; [apply layer_any; auto; lia|]. cbn beta.
        intros _ n2 d2 css2 new2 a2 E2 (K0 & K1 & K2 & K3 & K4).
        eapply epost_bind; [apply done_epost; [apply E2|eapply ext_off, E2]|]. cbn beta.
        intros dn n3 d3 css3 new3 a3 E3 (-> & -> & Hdn).
        apply epost_ret; [apply E3|eapply ext_off, E3|]. split; [exact K4|]. split.
        { eapply purely_trans; [exact K0|]. apply purely_same. rewrite (st_added _ _ _ _ (db_step_prepare d2 (ext_off _ _ _ _ _ _ _ _ E2))). apply app_nil_r. }
        split; [lia|].
        destruct dn; [split; [exact K2|now apply Hdn]|split; [|now apply path_small]].
        split; [lia|]. split; [lia|]. split; [lia|]. rewrite pend_prepare. auto.
      - exists q, r. split; [exact Ei|].
        pose proof (Z.div_pos (zlen (f_links n) - k) 4 ltac:(lia) ltac:(lia)) as Hpos.
        destruct (q =? 0) eqn:Eq; [lia|]. apply epost_ret; auto. split; [auto|]. split; [now apply purely_same|]. split; [auto|]. split; [|exact Hp].
        split; [pose proof (Z.mod_pos_bound (zlen (f_links n) - k) 4); lia|]. split; [lia|]. split; [lia|]. intros K _.
        assert (E0 : zlen (f_links n) = k) by lia. split; [exact E0|]. rewrite Hq, E0, Z.sub_diag. reflexivity. }
    destruct Hnew as (q & r & Ei & Hnew). rewrite Ei.
    eapply epost_bind; [exact Hnew|]. cbn beta. intros [depth|] n2 d2 css2 new2 a2 E2 (Kid2 & Pu2 & Same2 & Q2').
    2:{ apply epost_ret; [apply E2|eapply ext_off, E2|]. destruct Q2'. split; [now apply purely_grows|]. auto. }
    assert (Hedge2 : R -> edge_ok k n2 (db_w d2)).
    { intros HR. destruct (Z_le_gt_dec (zlen (f_links n2)) k) as [Hle|Hgt]; [now apply edge_none|]. destruct (Same2 ltac:(lia)) as [-> ->]. auto. }
    destruct Q2' as [Hq Hp2]. pose proof Hq as (Q1 & Q2 & Q3 & Q4).
    pose proof (ext_shorter _ _ _ _ _ _ _ _ E2) as L2. pose proof (ext_cfg _ _ _ _ _ _ _ _ E2) as C2.
    eapply epost_bind.
    { apply (fill_last _ h); [apply rec_spec|lia|lia|congruence|eapply ext_off, E2|apply E2|exact Hp2|exact Hedge2|lia|lia]. }
    cbn beta. intros _ n3 d3 css3 new3 a3 E3 (F0 & F0' & F1 & F2).
    assert (G3 : grows k n d n3 d3).
    { destruct (Z_le_gt_dec (zlen (f_links n2)) k) as [Hle|Hgt]; [apply purely_grows; eapply purely_trans; eauto|].
      destruct (Same2 ltac:(lia)) as [-> ->]. exact F0. }
    pose proof (ext_shorter _ _ _ _ _ _ _ _ E3) as L3. pose proof (ext_cfg _ _ _ _ _ _ _ _ E3) as C3.
    pose proof (filled_layer depth r n2 d2 n3 d3 Hq (ext_pend _ _ _ _ _ _ _ _ E3) F1) as Hat.
    eapply epost_bind; [apply done_epost; [apply E3|eapply ext_off, E3]|]. cbn beta.
    intros dn n4 d4 css4 new4 a4 E4 (-> & -> & Hdn4). cbn zeta. rewrite pend_prepare in Hdn4.
    pose proof (ext_shorter _ _ _ _ _ _ _ _ E4) as L4. pose proof (ext_cfg _ _ _ _ _ _ _ _ E4) as C4.
    eapply epost_bind.
    { apply loop_any; [destruct dn; lia|lia|congruence|eapply ext_off, E4|apply E4|].
      rewrite pend_prepare. intros Hp3. destruct dn; [now destruct (Hp3 (proj1 Hdn4 eq_refl))|auto]. }
    cbn beta. intros _ n5 d5 css5 new5 a5 E5 (Pu5 & Hp5 & Kid5).
    assert (G5 : grows k n d n5 d5).
    { eapply grows_purely; [|exact Pu5]. eapply grows_purely; [exact G3|]. apply purely_same.
      rewrite (st_added _ _ _ _ (db_step_prepare d3 (ext_off _ _ _ _ _ _ _ _ E3))). apply app_nil_r. }
    pose proof (ex_holds _ _ _ _ _ _ _ _ E5) as H5.
    eapply (gpost_epost R n5 d5 css5 (fun n' d' _ => committed n' /\ pend d' = [] /\ (lkids (-1) n -> lkids (-1) n'))); [exact H5| |].
    2:{ cbn beta. intros n' d' _ Pu HQ. split; [exact (grows_purely _ _ _ _ _ _ _ G5 Pu)|exact HQ]. }
    apply commit_spec.
    - eapply holds_file_ok, H5.
    - eapply ext_off, E5.
    - apply H5.
    - intros b Hb. split; [exact Hb|]. split; [now apply Hp5|]. intros Hl. apply (Kid5 (-1)); auto.
  Qed.

  (** What a successful Append has done. *)
  Definition appended (base : node) (d : db) (root : node) (d' : db) (cs : list bytes) : Prop :=
    exists chunks added rcs, pend d = map EvData chunks /\ pend d' = [] /\
      file_dag root rcs /\ concat rcs = concat cs ++ concat chunks /\
      Forall (fun c => zlen c <= BlockSizeLimit) chunks /\
      w_added (db_w d') = w_added (db_w d) ++ added /\ w_has (db_w d') = w_has (db_w d) /\
      w_getok (db_w d') = w_getok (db_w d) /\
      blocks_from base root added /\ (tsizes_exact base -> tsizes_exact root) /\
      fs_entries added = entries d chunks /\ node_prefix root = node_prefix base /\
      (lse (-1) base -> lse (-1) root) /\
      children_first (below base) added /\ grew k (node_links base) (node_links root) (map fst added) /\
      solid rcs = solid cs ++ solid chunks.

  Lemma Append_spec rfuel base d cs : (length (pend d) < fuel)%nat -> cfg d = c -> 0 <= db_offset d < two64 ->
    file_dag base cs -> appendable k base -> (height base <= rfuel)%nat ->
    (R -> forall m, edge k (node_links base) m -> dserv_get (db_w d) m = Ok m) ->
    match Append fuel rfuel base d with
    | (Ok root, base', d') => base' = root /\ appended base d root d' cs
    | (Err _, _, d') => ~ (faultless d /\ R) /\ wupf (below base) (db_w d) (db_w d')
    | (Panic, _, _) => False
    | (Fuel, _, _) => False
    end.
  Proof.
    intros HL Hc Ho Hf Ha Hh Hedge.
    destruct (appendable_open base cs Ha Hf) as (p & b & ls & n & css & -> & Hop & Hn & Ecc & Egd & Hpath & Epn & Efn & Escc).
    unfold Append. rewrite Hop.
    assert (Hp : path_ok rfuel n).
    { intros Hlt. destruct (Hpath Hlt) as (ls' & l' & A1 & A2 & A3). exists ls', l'. split; [exact A1|]. split; [exact A2|]. lia. }
    assert (Hed : R -> edge_ok k n (db_w d)).
    { intros HR m Hm. apply (Hedge HR). rewrite <- Egd. exact Hm. }
    pose proof (body_spec rfuel n d css HL Hc Ho Hn Hp Hed) as B.
    destruct (append_body fuel rfuel (n, d)) as [[u|e| |] [n' d']]; cbn [epost] in B; auto.
    - destruct B as (css' & new & a & E & (a' & Fa & Ga) & Hcm & Hpe & Hkids). split; [reflexivity|].
      pose proof (ex_holds _ _ _ _ _ _ _ _ E) as Hn'.
      destruct (holds_dag n' css' Hn' Hcm) as (rcs & Hd & Ercs & Esrcs).
      pose proof (ex_step _ _ _ _ _ _ _ _ E) as S. exists new, a, rcs.
      split; [rewrite (st_pend _ _ _ _ S), Hpe; apply app_nil_r|]. split; [exact Hpe|]. split; [exact Hd|].
      split; [rewrite Ercs, (ex_content _ _ _ _ _ _ _ _ E), Ecc; reflexivity|]. split; [apply E|].
      split; [apply S|]. split; [apply S|]. split; [apply S|]. rewrite <- Egd. split; [apply E|].
      split; [|split; [apply E|split; [apply E|split; [|split; [apply E|split]]]]].
      + intros X. apply tsizes_node. apply (ex_exact _ _ _ _ _ _ _ _ E). now apply tsizes_links in X.
      + intros X. apply loose_inv in X as (I1 & I2 & I3 & I4). destruct (Hkids (conj I2 (conj I3 I4))) as (J1 & J2 & J3).
        constructor; auto. destruct I1 as (q & b' & ls' & f & Eq & Hq & Hf' & Ht & Hda). rewrite Egd in Eq. injection Eq as <- <- <-.
        rewrite Efn in Hf'. apply Ok_inj in Hf'. subst f.
        exists (f_prefix n'), (f_bytes n'), (f_links n'), (f_file n'). split; [reflexivity|].
        split; [rewrite (ex_prefix _ _ _ _ _ _ _ _ E), Epn; exact Hq|]. split; [eapply unmarshal_marshal; [apply Hn'|exact Hcm]|].
        split; [rewrite (ex_type _ _ _ _ _ _ _ _ E); exact Ht|apply Hn'].
      + rewrite (st_added _ _ _ _ S) in Fa. apply app_inv_head in Fa. subst a'. exact Ga.
      + rewrite Esrcs, (ex_solid _ _ _ _ _ _ _ _ E), Escc. reflexivity.
    - rewrite Egd in B. exact B.
  Qed.
End Append.
