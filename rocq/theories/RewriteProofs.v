(** A file that has been overwritten in place is determined by its first version and its
    contents; it is the file that importing the contents gives. *)
From Verif Require Import Base Pb PbProofs FSNode FSNodeProofs Dag DagProofs Builder Balanced Trickle Importer Reader Modifier
  SpecFile SpecAppend SpecReader SpecModifier BuilderProofs BalancedProofs ImportProofs AppendProofs AppendRun ReaderProofs ModifierProofs ModifierRun ModifierFacts
  ReaderWitness SizesProofs SizesWitness AppendSame AppendBegun SpecShare ShareProofs SpecRewrite.

(** ** Shapes *)

Lemma shape_trans : forall a b c, same_shape a b -> same_shape b c -> same_shape a c.
Proof.
  induction a as [p d|p x ls IH] using DagProofs.node_ind'; intros b c H1 H2.
  - inversion H1; subst. inversion H2; subst. constructor. congruence.
  - inversion H1 as [|? ? b' f data S1 S2 S3 S4 S5|? ? ? ls' Hn Hz HF]; subst.
    + inversion H2 as [|? ? b2 f2 data2 T1 T2 T3 T4 T5|? ? ? ls2 Hn Hz HF]; subst.
      * rewrite S2 in T1. injection T1 as <-. cbn [set_data] in *. eapply (ss_leaf _ _ _ f data2); [exact S1|exact T2| | |].
        -- rewrite T3. unfold getData at 1. cbn [set_data d_data]. exact S3.
        -- intros E. destruct (S4 E) as (E1 & E2). destruct (T4 E2) as (E3 & E4). split; [congruence|exact E4].
        -- rewrite T5. exact S5.
      * destruct ls2; [|discriminate]. eapply ss_leaf; eassumption.
    + inversion H2 as [|? ? b2 f2 data2 T1 T2 T3 T4 T5|? ? ? ls2 Hn2 Hz2 HF2]; subst.
      * destruct ls; [|discriminate]. eapply ss_leaf; eassumption.
      * constructor; [congruence|congruence|]. clear - IH HF HF2. revert ls' ls2 HF HF2. induction IH as [|l ls Hl _ IHl]; intros [|l' ls'] [|l2 ls2] F1 F2; cbn [map] in *; inversion F1; subst; inversion F2; subst; constructor; eauto.
Qed.

Lemma shape_size : forall n n' cs cs', same_shape n n' -> file_dag n cs -> file_dag n' cs' -> zlen (concat cs) = zlen (concat cs').
Proof.
  induction n as [p d|p x ls IH] using DagProofs.node_ind'; intros n' cs cs' S H H'.
  - inversion S; subst. inversion H; subst. inversion H'; subst. cbn [concat]. now rewrite !app_nil_r.
  - inversion S as [|? ? b' f data S1 S2 S3 S4 S5|? ? ? ls' Hn Hz HF]; subst.
    + inversion H as [|? ? fs E|]; subst; [|congruence]. inversion H' as [|? ? fs' E'|]; subst; [|congruence]. rewrite S1 in E. injection E as <-. rewrite S2 in E'. injection E' as <-.
      cbn [concat]. rewrite !app_nil_r. unfold getData at 2. cbn [set_data d_data]. congruence.
    + inversion H as [|? ? fs E|? ? fs ? css Hne _ E _ _ Hf _ _]; subst.
      * destruct ls'; [|discriminate]. inversion H' as [|? ? fs' E'|]; subst; [|congruence]. rewrite E in E'. now injection E' as <-.
      * inversion H' as [|? ? fs' E'|? ? fs' ? css' Hne' _ E' _ _ Hf' _ _]; subst; [destruct ls; [congruence|discriminate]|]. rewrite !concat_concat.
        clear - IH HF Hf Hf'. revert ls' css css' HF Hf Hf'. induction IH as [|l ls Hl _ IHl]; intros [|l' ls'] css css' F1 F2 F3; cbn [map] in *; inversion F1; subst; inversion F2; subst; inversion F3; subst; [reflexivity|].
        cbn [map concat]. rewrite !zlen_app. erewrite Hl; [|eassumption..]. erewrite IHl; [|eassumption..]. reflexivity.
Qed.

(** Two files of the shape of a canonical one that have the same contents are the same. *)
Lemma shape_det : forall n n1 n2 cs1 cs2, canonical_leaves n -> same_shape n n1 -> same_shape n n2 -> file_dag n1 cs1 -> file_dag n2 cs2 -> (exists cs, file_dag n cs) -> concat cs1 = concat cs2 -> n1 = n2.
Proof.
  induction n as [p d|p x ls IH] using DagProofs.node_ind'; intros n1 n2 cs1 cs2 Hc S1 S2 F1 F2 (cs & F) E.
  - inversion S1; subst. inversion S2; subst. inversion F1; subst. inversion F2; subst. cbn [concat] in E. rewrite !app_nil_r in E. now subst.
  - assert (L1 : forall m, same_shape (NProto p x ls) m -> ls = [] -> exists f data b', m = NProto p b' [] /\ FSNodeFromBytes x = Ok f /\ GetBytes f = Ok x /\ FSNodeFromBytes b' = Ok (set_data data f) /\ GetBytes (set_data data f) = Ok b' /\ (data = None <-> d_data f = None)).
    { intros m Hm ->. destruct (Hc p x (reach_self _)) as (f & G1 & G2). inversion Hm as [|? ? b' f' data T1 T2 T3 T4 T5|? ? ? ls' Hn Hz HF]; subst.
      - rewrite G1 in T1. injection T1 as <-. exists f, data, b'. destruct (T4 G2). auto 9.
      - destruct ls'; [|discriminate]. exists f, (d_data f), x. replace (set_data (d_data f) f) with f by now destruct f. split; [reflexivity|]. tauto. }
    destruct ls as [|l0 r0].
    + destruct (L1 _ S1 eq_refl) as (f & da & b1 & -> & A1 & A2 & A3 & A4 & A5). destruct (L1 _ S2 eq_refl) as (f' & db & b2 & -> & B1 & _ & B3 & B4 & B5). rewrite A1 in B1. injection B1 as <-.
      inversion F1 as [|? ? g1 G1|]; subst; [|congruence]. inversion F2 as [|? ? g2 G2|]; subst; [|congruence]. rewrite A3 in G1. injection G1 as <-. rewrite B3 in G2. injection G2 as <-.
      cbn [concat] in E. rewrite !app_nil_r in E. unfold getData in E. cbn [set_data d_data] in E.
      assert (da = db) as <-; [|congruence]. destruct da as [u|], db as [v|]; cbn [obytes] in E; [congruence| | |reflexivity].
      * exfalso. assert (X : d_data f = None) by now apply B5. apply A5 in X. discriminate.
      * exfalso. assert (X : d_data f = None) by now apply A5. apply B5 in X. discriminate.
    + remember (l0 :: r0) as ls eqn:Els. assert (Hne : ls <> []) by (rewrite Els; discriminate). clear Els L1.
      inversion S1 as [|? ? ? ? ? ? ? ? ? ? X|? ? ? ls1 Hn1 Hz1 HF1]; subst; [congruence|]. inversion S2 as [|? ? ? ? ? ? ? ? ? ? X|? ? ? ls2 Hn2 Hz2 HF2]; subst; [congruence|].
      inversion F as [|? ? ? ? ? ? ? X|? ? fs ? css _ _ _ _ _ Hf _ _]; subst; [congruence|].
      inversion F1 as [|? ? ? ? ? ? ? X|? ? fs1 ? css1 _ _ _ _ _ Hf1 _ _]; subst; [destruct ls; [congruence|discriminate]|].
      inversion F2 as [|? ? ? ? ? ? ? X|? ? fs2 ? css2 _ _ _ _ _ Hf2 _ _]; subst; [destruct ls; [congruence|discriminate]|]. f_equal.
      assert (Hc' : forall l, In l ls -> canonical_leaves (lto l)) by (intros l Hl; eapply canonical_child; [exact Hc|exact Hl]). rewrite !concat_concat in E.
      clear - IH E Hn1 Hz1 HF1 Hn2 Hz2 HF2 Hf Hf1 Hf2 Hc'. revert ls1 ls2 css css1 css2 E Hn1 Hz1 HF1 Hn2 Hz2 HF2 Hf Hf1 Hf2.
      induction IH as [|l ls Hl _ IHl]; intros [|l1 ls1] [|l2 ls2] css css1 css2 E Hn1 Hz1 HF1 Hn2 Hz2 HF2 Hf Hf1 Hf2; cbn [map] in *; try discriminate; [reflexivity|].
      inversion HF1 as [|? ? ? ? P1 P2]; subst. inversion HF2 as [|? ? ? ? Q1 Q2]; subst. inversion Hf as [|? y ? r R1 R2]; subst. inversion Hf1 as [|? y1 ? r1 R3 R4]; subst. inversion Hf2 as [|? y2 ? r2 R5 R6]; subst.
      injection Hn1 as N1 N1'. injection Hz1 as Z1 Z1'. injection Hn2 as N2 N2'. injection Hz2 as Z2 Z2'. cbn [map concat] in E.
      assert (EL : length (concat y1) = length (concat y2)).
      { pose proof (shape_size _ _ _ _ P1 R1 R3). pose proof (shape_size _ _ _ _ Q1 R1 R5). unfold zlen in *. lia. }
      assert (EE : concat y1 = concat y2 /\ concat (map (@concat byte) r1) = concat (map (@concat byte) r2)).
      { clear - E EL. revert E EL. generalize (concat y1) (concat y2) (concat (map (@concat byte) r1)) (concat (map (@concat byte) r2)). intros a b u v E EL. revert b E EL. induction a as [|x a IH]; intros [|z b] E EL; cbn in *; try discriminate; [auto|].
        injection E as -> E. destruct (IH b E ltac:(lia)) as (-> & ->). auto. }
      destruct EE as (E1 & E2). f_equal.
      * destruct l1 as [nm1 sz1 t1], l2 as [nm2 sz2 t2]. cbn [lname lsize lto] in *. subst. f_equal. refine (Hl _ _ _ _ (Hc' l (or_introl eq_refl)) P1 Q1 R3 R5 (ex_intro _ y R1) E1).
      * refine (IHl (fun l' H => Hc' l' (or_intror H)) _ _ _ _ _ E2 N1' Z1' P2 N2' Z2' Q2 R2 R4 R6).
Qed.

(** ** Histories *)

Lemma overwritten_shape split wbsize n ops n' c : chunker_ok split -> file_content n c -> zlen c < 9223372036854775808 -> inside (zlen c) ops -> overwritten split wbsize n ops n' ->
  same_shape n n' /\ file_content n' (puts c ops).
Proof.
  intros Hs Hf Hc Hi H. revert c Hf Hc Hi. induction H as [n|n off b w n1 s ops n' H _ IH]; intros c Hf Hc Hi; [split; [apply same_shape_refl|exact Hf]|].
  inversion Hi as [|? ? (I1 & I2) Hi']; subst. cbn [fst snd] in *. destruct (overwrite_exact _ _ _ _ _ _ _ _ _ Hs Hf Hc I1 I2 H) as (F1 & F2 & F3 & _).
  destruct (IH (put c off b) F1) as (G1 & G2); [lia|now rewrite F2|]. split; [eapply shape_trans; eassumption|exact G2].
Qed.
Lemma rewrite_same : forall split wbsize n c ops1 ops2 n1 n2, chunker_ok split -> file_content n c -> canonical_leaves n -> zlen c < 9223372036854775808 -> inside (zlen c) ops1 -> inside (zlen c) ops2 ->
  overwritten split wbsize n ops1 n1 -> overwritten split wbsize n ops2 n2 -> puts c ops1 = puts c ops2 -> n1 = n2.
Proof.
  intros split wbsize n c ops1 ops2 n1 n2 Hs Hf Hk Hc I1 I2 H1 H2 E. destruct (overwritten_shape _ _ _ _ _ _ Hs Hf Hc I1 H1) as (S1 & (cs1 & D1 & E1)). destruct (overwritten_shape _ _ _ _ _ _ Hs Hf Hc I2 H2) as (S2 & (cs2 & D2 & E2)).
  destruct Hf as (cs & D & _). refine (shape_det n n1 n2 cs1 cs2 Hk S1 S2 D1 D2 (ex_intro _ cs D) _). congruence.
Qed.
Lemma rewrite_back : forall split wbsize n c ops n', chunker_ok split -> file_content n c -> canonical_leaves n -> zlen c < 9223372036854775808 -> inside (zlen c) ops ->
  overwritten split wbsize n ops n' -> puts c ops = c -> n' = n.
Proof. intros split wbsize n c ops n' Hs Hf Hk Hc I1 H1 E. refine (rewrite_same split wbsize n c ops [] n' n Hs Hf Hk Hc I1 _ H1 _ E); [constructor|constructor]. Qed.

(** ** Imports of chunks of the same lengths *)

Definition like (n n' : node) : Prop := same_shape n n' /\ node_size n = node_size n' /\ Forall unnamed (node_links n) /\ Forall unnamed (node_links n').
Definition llike (l l' : link) : Prop := unnamed l /\ unnamed l' /\ lsize l = lsize l' /\ same_shape (lto l) (lto l').
Definition elike (e e' : event) : Prop := match e, e' with EvData b, EvData b' => zlen b = zlen b' | EvErr x, EvErr y => x = y | _, _ => False end.
Definition olike (o o' : option bytes) : Prop := match o, o' with Some b, Some b' => zlen b = zlen b' | None, None => True | _, _ => False end.
Definition dlike (d d' : db) : Prop := Forall2 elike (db_spl d) (db_spl d') /\ olike (db_next d) (db_next d') /\ db_err d = db_err d' /\ cfg d = cfg d'.
Definition flike (n n' : fsn) : Prop := f_prefix n = f_prefix n' /\ f_bytes n = f_bytes n' /\ f_file n = f_file n' /\ Forall2 llike (f_links n) (f_links n').
Definition slike (s s' : fsn * db) : Prop := flike (fst s) (fst s') /\ dlike (snd s) (snd s').
Definition clike (c c' : xnode * Z) : Prop := like (fst (fst c)) (fst (fst c')) /\ snd c = snd c'.

Definition rd {S A} (R : S -> S -> Prop) (Q : A -> A -> Prop) (m1 m2 : M S A) : Prop :=
  forall s1 s2 a1 a2 s1' s2', R s1 s2 -> m1 s1 = (Ok a1, s1') -> m2 s2 = (Ok a2, s2') -> Q a1 a2 /\ R s1' s2'.
Lemma rd_ret {S A} R (Q : A -> A -> Prop) (a b : A) : Q a b -> rd (S := S) R Q (ret a) (ret b).
Proof. intros HQ s1 s2 a1 a2 s1' s2' H E1 E2. injection E1 as <- <-. injection E2 as <- <-. auto. Qed.
Lemma rd_fuel_l {S A} R Q (m : M S A) : rd (S := S) R Q (lift Fuel) m.
Proof. intros s1 s2 a1 a2 s1' s2' H E1 E2. discriminate. Qed.
Lemma rd_fuel_r {S A} R Q (m : M S A) : rd (S := S) R Q m (lift Fuel).
Proof. intros s1 s2 a1 a2 s1' s2' H E1 E2. discriminate. Qed.
Lemma rd_bind {S A B} R Q Q' (m1 m2 : M S A) (f1 f2 : A -> M S B) : rd R Q m1 m2 -> (forall a b, Q a b -> rd R Q' (f1 a) (f2 b)) -> rd R Q' (bind m1 f1) (bind m2 f2).
Proof.
  intros Hm Hf s1 s2 b1 b2 s1' s2' H E1 E2. unfold bind in *. destruct (m1 s1) as [[a1| | |] t1] eqn:E3; try discriminate. destruct (m2 s2) as [[a2| | |] t2] eqn:E4; try discriminate.
  destruct (Hm _ _ _ _ _ _ H E3 E4) as (HQ & H'). eapply Hf; eassumption.
Qed.
Lemma rd_if {S A} R Q (c : bool) (m1 m2 n1 n2 : M S A) : rd R Q m1 m2 -> rd R Q n1 n2 -> rd R Q (if c then m1 else n1) (if c then m2 else n2).
Proof. destruct c; auto. Qed.
Lemma rd_on_db {A} Q (m1 m2 : M db A) : rd dlike Q m1 m2 -> rd slike Q (on_db m1) (on_db m2).
Proof.
  intros Hm (n1 & d1) (n2 & d2) a1 a2 s1' s2' (Hn & Hd) E1 E2. unfold on_db in *. cbn [fst snd] in *. destruct (m1 d1) as [r1 e1] eqn:E3, (m2 d2) as [r2 e2] eqn:E4.
  injection E1 as -> <-. injection E2 as -> <-. destruct (Hm _ _ _ _ _ _ Hd E3 E4) as (HQ & H). split; [exact HQ|]. split; assumption.
Qed.

Lemma dlike_prepare d1 d2 : dlike d1 d2 -> dlike (prepareNext d1) (prepareNext d2).
Proof.
  intros (H1 & H2 & H3 & H4). unfold prepareNext. rewrite <- H3. destruct (db_next d1) as [b1|] eqn:E1, (db_next d2) as [b2|] eqn:E2; cbn [olike] in H2; try contradiction.
  - split; [exact H1|]. rewrite E1, E2. auto.
  - destruct (db_err d1) as [e|] eqn:Ee; [split; [exact H1|]; rewrite E1, E2, Ee; auto|]. destruct (db_spl d1) as [|x l] eqn:Sa, (db_spl d2) as [|y l'] eqn:Sb; inversion H1 as [|? ? ? ? Hx Hl]; subst; [split; [rewrite Sa, Sb; constructor|]; rewrite E1, E2, Ee; auto|].
    destruct x as [b|e], y as [b'|e']; cbn [elike] in Hx; try contradiction; (split; [exact Hl|]); cbn [db_set_input db_next db_err olike]; (split; [first [exact Hx|exact Logic.I]|]); (split; [congruence|exact H4]).
Qed.
Lemma rd_Done : rd dlike eq Done Done.
Proof.
  intros d1 d2 a1 a2 s1' s2' H E1 E2. apply dlike_prepare in H. pose proof H as (_ & Hn & He & _). unfold Done in *. rewrite <- He in E2.
  destruct (db_err (prepareNext d1)); [injection E1 as <- <-; injection E2 as <- <-; auto|]. injection E1 as <- <-. injection E2 as <- <-. split; [|exact H]. destruct (db_next _), (db_next _); cbn [olike] in Hn; auto; contradiction.
Qed.
Lemma rd_Next : rd dlike olike Next Next.
Proof.
  intros d1 d2 a1 a2 s1' s2' H E1 E2. apply dlike_prepare in H. pose proof H as (Hs & Hn & He & Hc). unfold Next in *. cbn [db_err db_set_input] in *. rewrite <- He in E2.
  destruct (db_err (prepareNext d1)) eqn:Ee; try discriminate. injection E1 as <- <-. injection E2 as <- <-. split; [exact Hn|]. split; [exact Hs|]. split; [exact Logic.I|]. split; [cbn [db_set_input db_err]; congruence|exact Hc].
Qed.
Lemma rd_Add x y : rd dlike eq (Add x) (Add y).
Proof.
  intros d1 d2 a1 a2 s1' s2' H E1 E2. unfold Add in *. destruct (dserv_add _ _ (db_w d1)) as [r1 w1], (dserv_add _ _ _) as [r2 w2].
  injection E1 as -> <-. injection E2 as -> <-. destruct a1, a2. split; [reflexivity|exact H].
Qed.
Lemma like_seal n n' : like n n' -> like (seal n) (seal n').
Proof. intros H. pose proof H as (_ & _ & H3 & H4). now rewrite !seal_unnamed by assumption. Qed.
Lemma like_link n n' : like n n' -> llike (make_link [] n) (make_link [] n').
Proof. intros (H1 & H2 & H3 & H4). unfold llike, make_link. cbn [lsize lto]. rewrite !seal_unnamed by assumption. split; [reflexivity|]. split; [reflexivity|]. auto. Qed.
Lemma rd_AddChild c c' : clike c c' -> rd slike eq (AddChild (fst c) (snd c)) (AddChild (fst c') (snd c')).
Proof.
  intros (Hc & Hz) (n1 & d1) (n2 & d2) a1 a2 s1' s2' (Hn & Hd) E1 E2. cbn [fst snd] in *. unfold AddChild in *. destruct (Add (fst c) d1) as [r1 e1] eqn:E3, (Add (fst c') d2) as [r2 e2] eqn:E4.
  injection E1 as -> <-. injection E2 as -> <-. destruct (rd_Add _ _ _ _ _ _ _ _ Hd E3 E4) as (<- & H). split; [reflexivity|]. split; [|exact H]. destruct Hn as (N1 & N2 & N3 & N4).
  cbn [fst]. split; [exact N1|]. split; [exact N2|]. cbn [f_file f_links]. split; [congruence|]. apply Forall2_app; [exact N4|]. constructor; [now apply like_link|constructor].
Qed.
Lemma leaf_size p b b' : zlen b = zlen b' -> node_size (NProto p b []) = node_size (NProto p b' []).
Proof. intros H. unfold node_size. cbn [block_len node_links map]. now rewrite H. Qed.
Lemma rd_leaf o o' t : BuilderProofs.leaf_ok t -> olike o o' -> rd dlike like (fun d => (NewLeafNode o t d, d)) (fun d => (NewLeafNode o' t d, d)).
Proof.
  intros Ht Ho d1 d2 a1 a2 s1' s2' H E1 E2. injection E1 as E1 <-. injection E2 as E2 <-. split; [|exact H]. destruct H as (_ & _ & _ & Hc). destruct (cfg_fields _ _ Hc) as (Er & _ & Eb & _).
  assert (Hz : zlen (obytes o) = zlen (obytes o')) by (destruct o, o'; cbn [olike obytes] in *; auto; contradiction).
  assert (Hnone : o' = None <-> o = None) by (destruct o, o'; cbn [olike] in *; try contradiction; split; congruence).
  unfold NewLeafNode in *. rewrite <- Hz, <- Er, <- Eb in E2. destruct (_ <? _) eqn:El; [discriminate|]. apply Z.ltb_ge in El. destruct (db_raw d1).
  - injection E1 as <-. injection E2 as <-. split; [now constructor|]. split; [unfold node_size; cbn [block_len node_links map]; now rewrite Hz|]. split; constructor.
  - unfold Commit in *. cbn [SetFileData f_file f_prefix f_links NewFSNodeOverDag] in *. set (F := SetData o (NewFSNode t)) in *.
    assert (EF : SetData o' (NewFSNode t) = set_data o' F) by (unfold F, SetData; rewrite <- Hz; destruct (NewFSNode t); reflexivity). rewrite EF in E2.
    destruct (GetBytes F) as [b1| | |] eqn:G1; try discriminate. cbn [rbind] in E1. destruct (GetBytes (set_data o' F)) as [b2| | |] eqn:G2; try discriminate. cbn [rbind] in E2. injection E1 as <-. injection E2 as <-. unfold GetDagNode. cbn [f_prefix f_bytes f_links].
    assert (D1 : FSNodeFromBytes b1 = Ok F). { destruct (SetData_New t o) as (H1 & _). destruct (commit_roundtrip F) as (b & Hb & Hd); [apply good_leaf; [exact Ht|unfold BlockSizeLimit, two64 in *; lia]|unfold F; rewrite H1; discriminate|]. rewrite G1 in Hb. now injection Hb as <-. }
    assert (DD : d_data F = o) by reflexivity.
    destruct (leaf_encode b1 F o' D1) as (b' & B1 & B2 & B3); [unfold getData; rewrite DD; auto|rewrite DD; exact Hnone|]. rewrite G2 in B1. injection B1 as <-. specialize (B3 G1).
    split; [eapply (ss_leaf _ _ _ F o'); [exact D1|exact B2|unfold getData; rewrite DD; auto|auto|rewrite DD; exact Hnone]|]. split; [now apply leaf_size|]. split; constructor.
Qed.
Lemma rd_store n n' z : like n n' -> rd dlike (fun x y => like (fst x) (fst y)) (ProcessFileStore n z) (ProcessFileStore n' z).
Proof.
  intros Hn d1 d2 a1 a2 s1' s2' H E1 E2. unfold ProcessFileStore in *.
  assert (X : forall d (m : node) (r : res xnode) d', match db_fs d, m with true, NRaw _ _ => (Ok (m, Some (db_offset d)), db_set_offset (u64 (db_offset d + z)) d) | _, _ => (Ok (m, None), d) end = (r, d') ->
    (exists o, r = Ok (m, o)) /\ db_spl d' = db_spl d /\ db_next d' = db_next d /\ db_err d' = db_err d /\ cfg d' = cfg d).
  { intros d m r d' E. destruct (db_fs d), m; injection E as <- <-; (split; [eexists; reflexivity|]); auto. }
  apply X in E1 as ((o1 & [= ->]) & A1 & A2 & A3 & A4). apply X in E2 as ((o2 & [= ->]) & B1 & B2 & B3 & B4). split; [exact Hn|]. destruct H as (H1 & H2 & H3 & H4). unfold dlike. rewrite A1, A2, A3, A4, B1, B2, B3, B4. auto.
Qed.
Lemma rd_leaf_data t : BuilderProofs.leaf_ok t -> rd dlike clike (NewLeafDataNode t) (NewLeafDataNode t).
Proof.
  intros Ht. unfold NewLeafDataNode. eapply rd_bind; [apply rd_Next|]. intros o o' Ho. assert (Hz : zlen (obytes o) = zlen (obytes o')) by (destruct o, o'; cbn [olike obytes] in *; auto; contradiction). rewrite <- Hz.
  eapply rd_bind; [apply rd_leaf; [exact Ht|exact Ho]|]. intros n n' Hn. eapply rd_bind; [apply rd_store, Hn|]. intros x y Hx. apply rd_ret. split; [exact Hx|reflexivity].
Qed.
Lemma rd_commit : rd slike eq commit commit.
Proof.
  intros (n1 & d1) (n2 & d2) a1 a2 s1' s2' ((N1 & N2 & N3 & N4) & Hd) E1 E2. cbn [fst snd] in *. unfold commit, Commit in *. cbn [fst snd] in *. rewrite <- N3 in E2.
  destruct (GetBytes (f_file n1)) as [b| | |]; try discriminate. cbn [rbind] in *. injection E1 as <- <-. injection E2 as <- <-. split; [reflexivity|]. split; [|exact Hd]. cbn [fst]. split; [exact N1|]. split; [reflexivity|]. split; [reflexivity|exact N4].
Qed.
Lemma flike_node n n' : flike n n' -> like (GetDagNode n) (GetDagNode n').
Proof.
  intros (N1 & N2 & N3 & N4). unfold GetDagNode. rewrite <- N1, <- N2.
  assert (X : map lname (f_links n) = map lname (f_links n') /\ map lsize (f_links n) = map lsize (f_links n') /\ Forall2 same_shape (map lto (f_links n)) (map lto (f_links n')) /\ map link_len (f_links n) = map link_len (f_links n') /\ Forall unnamed (f_links n) /\ Forall unnamed (f_links n')).
  { clear - N4. induction N4 as [|l l' ls ls' (H1 & H2 & H3 & H4) _ (I1 & I2 & I3 & I4 & I5 & I6)]; cbn [map]; [repeat constructor|]. split; [f_equal; [congruence|exact I1]|]. split; [f_equal; [exact H3|exact I2]|]. split; [now constructor|].
    split; [|split; now constructor]. f_equal; [|exact I4]. unfold link_len. rewrite H1, H2, H3. assert (Hp : node_prefix (lto l) = node_prefix (lto l')) by now inversion H4. now rewrite Hp. }
  destruct X as (X1 & X2 & X3 & X4 & X5 & X6). split; [now constructor|]. split; [unfold node_size; cbn [block_len node_links]; now rewrite X4, X2|]. auto.
Qed.
Lemma rd_with_new n (m1 m2 : M (fsn * db) unit) : f_links n = [] -> rd slike eq m1 m2 -> rd dlike clike (with_new n m1) (with_new n m2).
Proof.
  intros Hn Hm d1 d2 a1 a2 s1' s2' Hd E1 E2. unfold with_new in *. destruct (m1 (n, d1)) as [[[]| | |] [n1 e1]] eqn:E3; try discriminate. destruct (m2 (n, d2)) as [[[]| | |] [n2 e2]] eqn:E4; try discriminate.
  injection E1 as <- <-. injection E2 as <- <-. assert (H0 : slike (n, d1) (n, d2)) by (split; [|exact Hd]; cbn [fst]; repeat split; rewrite Hn; constructor).
  destruct (Hm _ _ _ _ _ _ H0 E3 E4) as (_ & Hk & H). cbn [fst snd] in *. split; [|exact H]. split; [now apply flike_node|]. cbn [snd]. unfold fFileSize. now rewrite (proj1 (proj2 (proj2 Hk))).
Qed.
Lemma rd_db {A} Q (f1 f2 : option prefix -> M db A) : (forall p, rd dlike Q (f1 p) (f2 p)) -> rd dlike Q (fun b => f1 (db_builder b) b) (fun b => f2 (db_builder b) b).
Proof. intros H d1 d2 a1 a2 s1' s2' Hd E1 E2. pose proof Hd as (_ & _ & _ & Hc). destruct (cfg_fields _ _ Hc) as (_ & _ & E & _). rewrite <- E in E2. eapply H; eassumption. Qed.
Lemma rd_fill mk1 mk2 : rd dlike clike mk1 mk2 -> forall f1 f2, rd slike eq (fill_loop mk1 f1) (fill_loop mk2 f2).
Proof.
  intros Hm.
  assert (X : forall k1 k2, rd slike eq k1 k2 -> forall s1 s2 a1 a2 s1' s2', slike s1 s2 ->
    (if fNumChildren (fst s1) <? db_maxlinks (snd s1) then (do d <- on_db Done ;; if d : bool then ret tt else do c <- on_db mk1 ;; do _ <- AddChild (fst c) (snd c) ;; k1) s1 else (Ok tt, s1)) = (Ok a1, s1') ->
    (if fNumChildren (fst s2) <? db_maxlinks (snd s2) then (do d <- on_db Done ;; if d : bool then ret tt else do c <- on_db mk2 ;; do _ <- AddChild (fst c) (snd c) ;; k2) s2 else (Ok tt, s2)) = (Ok a2, s2') -> a1 = a2 /\ slike s1' s2').
  { intros k1 k2 Hk s1 s2 a1 a2 s1' s2' H E1 E2. pose proof H as ((_ & _ & Hf & _) & (_ & _ & _ & Hc)). destruct (cfg_fields _ _ Hc) as (_ & Em & _). unfold fNumChildren in *. rewrite Hf, Em in E1.
    destruct (_ <? _); [|injection E1 as <- <-; injection E2 as <- <-; auto]. revert s1 s2 a1 a2 s1' s2' H E1 E2 Hf Hc Em.
    assert (Y : rd slike eq (do d <- on_db Done ;; if d : bool then ret tt else do c <- on_db mk1 ;; do _ <- AddChild (fst c) (snd c) ;; k1) (do d <- on_db Done ;; if d : bool then ret tt else do c <- on_db mk2 ;; do _ <- AddChild (fst c) (snd c) ;; k2)).
    { eapply rd_bind; [apply rd_on_db, rd_Done|]. intros b ? <-. apply rd_if; [now apply rd_ret|]. eapply rd_bind; [apply rd_on_db, Hm|]. intros c c' Hc. eapply rd_bind; [apply rd_AddChild, Hc|]. intros _ _ _. exact Hk. }
    intros s1 s2 a1 a2 s1' s2' H E1 E2 _ _ _. exact (Y _ _ _ _ _ _ H E1 E2). }
  induction f1 as [|f1 IH]; intros f2 s1 s2 a1 a2 s1' s2' H E1 E2; destruct f2; cbn [fill_loop] in *; (eapply X; [|exact H|exact E1|exact E2]); first [apply rd_fuel_l|apply rd_fuel_r|apply IH].
Qed.
Lemma rd_fill_room mk1 mk2 (k1 k2 : M (fsn * db) unit) : rd dlike clike mk1 mk2 -> rd slike eq k1 k2 -> rd slike eq (fun s => (do _ <- fill_loop mk1 (room s) ;; k1) s) (fun s => (do _ <- fill_loop mk2 (room s) ;; k2) s).
Proof. intros Hm Hk s1 s2 a1 a2 s1' s2' H E1 E2. eapply rd_bind; [apply rd_fill, Hm|intros [] [] _; exact Hk|exact H|exact E1|exact E2]. Qed.
Lemma rd_layer : rd slike eq FillNodeLayer FillNodeLayer.
Proof. apply rd_fill_room; [apply rd_leaf_data; now right|apply rd_commit]. Qed.

Lemma rd_fillNodeRec depth : rd slike eq (fillNodeRec depth) (fillNodeRec depth).
Proof.
  induction depth as [|d IH]; [intros s1 s2 a1 a2 s1' s2' _ E; discriminate|]. cbn [fillNodeRec]. apply rd_fill_room; [|apply rd_commit].
  destruct d as [|d']; [apply rd_leaf_data; now left|]. apply (rd_db _ (fun p => with_new (NewFSNodeOverDag p TFile) (fillNodeRec (S d'))) (fun p => with_new (NewFSNodeOverDag p TFile) (fillNodeRec (S d')))).
  intros p. apply rd_with_new; [reflexivity|exact IH].
Qed.
Lemma rd_layout_loop : forall f1 f2 depth r1 r2 z, like (fst r1) (fst r2) -> rd dlike (fun x y => like (fst x) (fst y)) (layout_loop f1 depth r1 z) (layout_loop f2 depth r2 z).
Proof.
  induction f1 as [|f1 IH]; intros f2 depth r1 r2 z Hr.
  - destruct f2; cbn [layout_loop]; (eapply rd_bind; [apply rd_Done|]); intros dn ? <-; (apply rd_if; [now apply rd_ret|]); apply rd_fuel_l.
  - destruct f2; cbn [layout_loop]; (eapply rd_bind; [apply rd_Done|]); intros dn ? <-; (apply rd_if; [now apply rd_ret|]); [apply rd_fuel_r|].
    eapply (rd_bind dlike clike); [|intros c c' (Hc & Hz); rewrite Hz; apply IH; exact Hc].
    apply (rd_db _ (fun p => with_new (NewFSNodeOverDag p TFile) (do _ <- AddChild r1 z ;; fillNodeRec depth)) (fun p => with_new (NewFSNodeOverDag p TFile) (do _ <- AddChild r2 z ;; fillNodeRec depth))).
    intros p. apply rd_with_new; [reflexivity|]. eapply rd_bind; [apply (rd_AddChild (r1, z) (r2, z)); split; [exact Hr|reflexivity]|]. intros _ _ _. apply rd_fillNodeRec.
Qed.
Lemma rd_balanced f1 f2 : rd dlike like (Balanced.Layout f1) (Balanced.Layout f2).
Proof.
  unfold Balanced.Layout. eapply rd_bind; [apply rd_Done|]. intros dn ? <-. apply rd_if.
  - eapply rd_bind; [apply rd_leaf; [now left|exact Logic.I]|]. intros n n' Hn. eapply rd_bind; [apply rd_Add|]. intros _ _ _. apply rd_ret, like_seal; assumption.
  - eapply rd_bind; [apply rd_leaf_data; now left|]. intros c c' (Hc & Hz). rewrite Hz. eapply rd_bind; [apply rd_layout_loop, Hc|]. intros x y Hx. eapply rd_bind; [apply rd_Add|]. intros _ _ _. apply rd_ret, like_seal; assumption.
Qed.
Lemma rd_add_children mk1 mk2 : rd dlike clike mk1 mk2 -> forall k, rd slike eq (add_children mk1 k) (add_children mk2 k).
Proof.
  intros Hm. induction k as [|k IH]; cbn [add_children]; [now apply rd_ret|]. eapply rd_bind; [apply rd_on_db, rd_Done|]. intros dn ? <-. apply rd_if; [now apply rd_ret|].
  eapply rd_bind; [apply rd_on_db, Hm|]. intros c c' Hc. eapply rd_bind; [apply rd_AddChild, Hc|]. intros _ _ _. apply IH.
Qed.
Lemma rd_depth_loop fill1 fill2 : (forall d, rd dlike clike (fill1 d) (fill2 d)) -> forall f1 f2 depth max, rd slike eq (depth_loop fill1 f1 depth max) (depth_loop fill2 f2 depth max).
Proof.
  intros Hm. induction f1 as [|f1 IH]; intros f2 depth max; destruct f2; cbn [depth_loop]; (apply rd_if; [|now apply rd_ret]); (eapply rd_bind; [apply rd_on_db, rd_Done|]); intros dn ? <-; (apply rd_if; [now apply rd_ret|]);
    (eapply rd_bind; [apply rd_add_children, Hm|]); intros _ _ _; first [apply rd_fuel_l|apply rd_fuel_r|apply IH].
Qed.
Lemma rd_trickle_rec : forall f1 f2 max, rd slike eq (fillTrickleRec f1 max) (fillTrickleRec f2 max).
Proof.
  induction f1 as [|f1 IH]; intros f2 max; [apply rd_fuel_l|]. destruct f2 as [|f2]; [apply rd_fuel_r|]. cbn [fillTrickleRec].
  eapply rd_bind; [apply rd_layer|]. intros _ _ _. eapply rd_bind; [|intros _ _ _; apply rd_commit]. apply rd_depth_loop. intros d.
  apply (rd_db _ (fun p => with_new (NewFSNodeOverDag p TFile) (fillTrickleRec f1 d)) (fun p => with_new (NewFSNodeOverDag p TFile) (fillTrickleRec f2 d))). intros p. apply rd_with_new; [reflexivity|apply IH].
Qed.
Lemma rd_trickle f1 f2 : rd dlike like (Trickle.Layout f1) (Trickle.Layout f2).
Proof.
  unfold Trickle.Layout. eapply (rd_bind dlike clike); [|intros c c' (Hc & _); eapply rd_bind; [apply rd_Add|]; intros _ _ _; apply rd_ret, like_seal; assumption].
  apply (rd_db _ (fun p => with_new (NewFSNodeOverDag p TFile) (fillTrickleRec f1 (-1))) (fun p => with_new (NewFSNodeOverDag p TFile) (fillTrickleRec f2 (-1)))). intros p. apply rd_with_new; [reflexivity|apply rd_trickle_rec].
Qed.

Lemma elike_map : forall xs ys : list bytes, map zlen xs = map zlen ys -> Forall2 elike (map EvData xs) (map EvData ys).
Proof. induction xs as [|x xs IH]; intros [|y ys] H; cbn [map] in *; try discriminate; constructor; [cbn [elike]; congruence|apply IH; congruence]. Qed.
Lemma build_shape l1 l2 dbp f1 f2 spl1 spl2 w1 w2 r1 r2 w1' w2' : rd dlike like l1 l2 -> Forall2 elike spl1 spl2 ->
  build l1 dbp f1 spl1 w1 = (Ok r1, w1') -> build l2 dbp f2 spl2 w2 = (Ok r2, w2') -> like r1 r2.
Proof.
  intros H He E1 E2. unfold build, New in *. destruct (pr_nocopy dbp && negb f1) eqn:N1; [discriminate|]. destruct (pr_nocopy dbp && negb f2) eqn:N2; [discriminate|].
  assert (E : pr_nocopy dbp && f1 = pr_nocopy dbp && f2) by (destruct (pr_nocopy dbp), f1, f2; cbn in *; congruence). rewrite <- E in E2.
  destruct (l1 _) as [a1 d1] eqn:L1 in E1. destruct (l2 _) as [a2 d2] eqn:L2 in E2. injection E1 as -> _. injection E2 as -> _.
  refine (proj1 (H _ _ _ _ _ _ _ L1 L2)). split; [exact He|]. split; [exact Logic.I|]. split; reflexivity.
Qed.
Lemma imports_shape t dbp xs ys r1 r2 : map zlen xs = map zlen ys -> imported t dbp xs r1 -> imported t dbp ys r2 -> same_shape r1 r2.
Proof.
  intros E (_ & _ & f1 & i1 & w1 & w1' & H1) (_ & _ & f2 & i2 & w2 & w2' & H2). apply elike_map in E. destruct t.
  - destruct H1 as (_ & _ & H1), H2 as (_ & _ & H2). exact (proj1 (build_shape _ _ _ _ _ _ _ _ _ _ _ _ _ (rd_trickle f1 f2) E H1 H2)).
  - exact (proj1 (build_shape _ _ _ _ _ _ _ _ _ _ _ _ _ (rd_balanced f1 f2) E H1 H2)).
Qed.
Lemma imported_canonical t dbp xs r : imported t dbp xs r -> canonical_leaves r.
Proof. intros (_ & _ & f & i & w & w' & H). apply imports_fine. destruct t; [right; destruct H as (_ & _ & H)|left]; eauto 9. Qed.
Lemma rewrite_import : forall split wbsize t dbp xs ys r1 r2 ops n', chunker_ok split -> zlen (concat xs) < 9223372036854775808 -> map zlen xs = map zlen ys -> imported t dbp xs r1 -> imported t dbp ys r2 ->
  inside (zlen (concat xs)) ops -> overwritten split wbsize r1 ops n' -> puts (concat xs) ops = concat ys -> n' = r2.
Proof.
  intros split wbsize t dbp xs ys r1 r2 ops n' Hs Hz El H1 H2 Hi Ho E. pose proof (imports_shape _ _ _ _ _ _ El H1 H2) as S. pose proof (imported_canonical _ _ _ _ H1) as C.
  destruct (imported_facts _ _ _ _ H1) as (F1 & _). destruct (imported_facts _ _ _ _ H2) as (F2 & _).
  assert (Hf : file_content r1 (concat xs)) by (exists xs; auto). destruct (overwritten_shape _ _ _ _ _ _ Hs Hf Hz Hi Ho) as (S1 & (cs1 & D1 & E1)).
  refine (shape_det r1 n' r2 cs1 ys C S1 S D1 F2 (ex_intro _ xs F1) _). congruence.
Qed.

(** ** Witnesses *)

Lemma rewrite_refuted : exists split wbsize n c off b w n' s', chunker_ok split /\ file_content n c /\ tsizes_exact n /\ 0 <= off /\ off + zlen b <= zlen c /\ put c off b = c /\ write_back split wbsize b off n w = (Ok n', s') /\ n' <> n.
Proof.
  exists bytewise, wb, wide, [x61; x62; x63], 1, [x62], full. exists (ok_node (fst (write_back bytewise wb [x62] 1 wide full))), (snd (write_back bytewise wb [x62] 1 wide full)).
  split; [exact bytewise_ok|]. split; [|split; [|split; [lia|split; [unfold zlen; cbn [length]; lia|split; [vm_compute; reflexivity|split]]]]].
  - exists [[x61; x62; x63]]. split; [|reflexivity]. change [[x61; x62; x63]] with (concat [[[x61; x62; x63]]]).
    eapply fd_node with (fs := mkData (Some 2) None (Some 3) [3] None None []); try (vm_compute; reflexivity).
    + discriminate.
    + repeat constructor.
    + now left.
    + cbn [map lto nolink]. apply Forall2_cons; [|apply Forall2_nil]. change [x61; x62; x63] with (getData (mkData (Some 2) (Some [x61; x62; x63]) (Some 3) [] None None [])).
      apply fd_leaf; [vm_compute; reflexivity|now left|reflexivity|vm_compute; reflexivity].
  - apply tsizes_node. apply Forall_cons; [split; [vm_compute; reflexivity|]|apply Forall_nil]. apply tsizes_node. apply Forall_nil.
  - replace (Ok (ok_node (fst (write_back bytewise wb [x62] 1 wide full)))) with (fst (write_back bytewise wb [x62] 1 wide full)) by (vm_compute; reflexivity). apply surjective_pairing.
  - assert (X : node_eqb (ok_node (fst (write_back bytewise wb [x62] 1 wide full))) wide = false) by (vm_compute; reflexivity). intros E. apply node_eqb_eq in E. congruence.
Qed.

Lemma ok_write n b off : (match fst (write_back bytewise wb b off n full) with Ok _ => true | _ => false end) = true -> exists n1 s, write_back bytewise wb b off n full = (Ok n1, s) /\ n1 = ok_node (fst (write_back bytewise wb b off n full)).
Proof. destruct (write_back bytewise wb b off n full) as [[r| | |] s]; try discriminate. cbn [fst ok_node]. eauto. Qed.
(** Chunk "b" of "abc" replaced; and "ab" replaced and put back. *)
Definition abc : list bytes := [[x61]; [x62]; [x63]].
Definition azc : list bytes := [[x61]; [x7a]; [x63]].
Definition wrote (n : node) (off : Z) (b : bytes) : node := ok_node (fst (write_back bytewise wb b off n full)).
Lemma two_writes n : (match fst (write_back bytewise wb [x79; x7a] 0 n full) with Ok _ => true | _ => false end) = true ->
  (match fst (write_back bytewise wb [x61; x62] 0 (wrote n 0 [x79; x7a]) full) with Ok _ => true | _ => false end) = true -> exists n', overwritten bytewise wb n [(0, [x79; x7a]); (0, [x61; x62])] n'.
Proof.
  intros H1 H2. destruct (ok_write _ _ _ H1) as (n1 & s1 & E1 & ->). destruct (ok_write _ _ _ H2) as (n2 & s2 & E2 & _). exists n2.
  eapply ow_write; [exact E1|]. eapply ow_write; [exact E2|]. apply ow_none.
Qed.
Lemma one_write n : (match fst (write_back bytewise wb [x7a] 1 n full) with Ok _ => true | _ => false end) = true -> exists n', overwritten bytewise wb n [(1, [x7a])] n'.
Proof. intros H1. destruct (ok_write _ _ _ H1) as (n1 & s1 & E1 & _). exists n1. eapply ow_write; [exact E1|]. apply ow_none. Qed.
