(** Attributes of the root stay, whatever an append or a modifier does and however it ends. *)
From Verif Require Import Base Pb PbProofs FSNode FSNodeProofs Dag DagProofs Builder Balanced Trickle Importer Reader Modifier SpecFile SpecModifier SpecKind
  BuilderProofs AppendProofs GrowProofs ModifierProofs ModifierRun ModifierFacts DetProofs AppendRun Directory SizesProofs.

Definition zok (c : xnode * Z) : Prop := in_u64 (snd c).
Notation makes m := (trip T m (fun c (_ : db) => zok c) T).

Lemma leaf_zok t : makes (NewLeafDataNode t).
Proof.
  intros d _. unfold NewLeafDataNode. unfold bind at 1. destruct (Next d) as [[data| | |] d1]; try exact Logic.I.
  unfold bind at 1. destruct (NewLeafNode data t d1) as [n| | |] eqn:En; try exact Logic.I.
  assert (Hz : in_u64 (zlen (obytes data))).
  { unfold NewLeafNode in En. destruct (_ <? _) eqn:El; [discriminate|]. pose proof (zlen_nonneg (obytes data)). unfold in_u64, BlockSizeLimit, two64 in *. lia. }
  unfold bind at 1, ProcessFileStore. destruct (db_fs d1), n; exact Hz.
Qed.

Section Keep.
  Variables (A : attributes) (p : prefix) (B : bytes -> Prop).
  Hypothesis HB : forall f b, tgood f -> attrs f = A -> GetBytes f = Ok b -> B b.
  Definition inv (n : fsn) : Prop := tgood (f_file n) /\ attrs (f_file n) = A /\ f_prefix n = p /\ B (f_bytes n).
  Notation keeps m := (trip (on inv) m (fun _ => on inv) (on inv)).

  Lemma k_on_db {X} (m : M db X) (Q : X -> Prop) : trip T m (fun a _ => Q a) T -> trip (on inv) (on_db m) (fun a s => on inv s /\ Q a) (on inv).
  Proof. intros H s Hs. unfold on_db. specialize (H (snd s) Logic.I). destruct (m (snd s)) as [[a| | |] d]; try exact Hs. split; [exact Hs|exact H]. Qed.
  Lemma k_done : keeps (on_db Done).
  Proof. intros s Hs. unfold on_db. destruct (Done (snd s)) as [[a| | |] d]; exact Hs. Qed.
  Lemma k_AddChild x z : trip (fun s => on inv s /\ zok (x, z)) (AddChild x z) (fun _ => on inv) (on inv).
  Proof.
    intros [n d] ((H1 & H2 & H3 & H4) & Hz). unfold AddChild.
    assert (H : inv (mkFsn (f_prefix n) (f_bytes n) (f_links n ++ [make_link [] (fst x)]) (AddBlockSize z (f_file n)))).
    { split; [now apply tgood_add|]. split; [|split; assumption]. cbn [f_file]. rewrite AddBlockSize_eq. exact H2. }
    destruct (Add x d) as [[a| | |] d']; exact H.
  Qed.
  Lemma k_commit : keeps commit.
  Proof.
    intros [n d] (H1 & H2 & H3 & H4). unfold commit, Commit. cbn [fst snd]. destruct (GetBytes (f_file n)) as [b| | |] eqn:E; cbn [rbind]; repeat split; auto; try apply H1.
    cbn [f_bytes]. eapply HB; eauto.
  Qed.
  Lemma k_fill mk : makes mk -> forall fuel, keeps (fill_loop mk fuel).
  Proof.
    intros Hm. induction fuel as [|f IH]; intros s Hs; cbn [fill_loop]; (destruct (_ <? _); [|exact Hs]); revert s Hs;
      match goal with |- forall s, _ -> match ?m s with _ => _ end => change (keeps m) end.
    all: eapply trip_bind; [apply k_done|]; intros dn; apply trip_if; [apply trip_ret|];
      eapply trip_bind; [apply (k_on_db mk zok), Hm|]; intros [x z]; eapply trip_bind; [apply k_AddChild|]; intros u; first [apply trip_fuel|exact IH].
  Qed.
  Lemma k_layer : keeps FillNodeLayer.
  Proof. intros s Hs. unfold FillNodeLayer. refine (trip_bind _ _ (on inv) (fun _ => on inv) (fun _ => on inv) (on inv) _ _ s Hs); [apply k_fill, leaf_zok|intros u; apply k_commit]. Qed.
  Lemma k_add_children mk : makes mk -> forall k, keeps (add_children mk k).
  Proof.
    intros Hm. induction k as [|k IH]; cbn [add_children]; [apply trip_ret|]. eapply trip_bind; [apply k_done|]. intros dn. apply trip_if; [apply trip_ret|].
    eapply trip_bind; [apply (k_on_db mk zok), Hm|]. intros [x z]. eapply trip_bind; [apply k_AddChild|]. intros ?. exact IH.
  Qed.
  Lemma k_depth fill : (forall z, makes (fill z)) -> forall fuel depth mx, keeps (depth_loop fill fuel depth mx).
  Proof.
    intros Hm. induction fuel as [|f IH]; intros depth mx; cbn [depth_loop]; (apply trip_if; [|apply trip_ret]); (eapply trip_bind; [apply k_done|]); intros dn;
      (apply trip_if; [apply trip_ret|]); (eapply trip_bind; [apply k_add_children, Hm|]); intros ?; [apply trip_fuel|apply IH].
  Qed.
  Lemma k_get_db : keeps get_db. Proof. intros s Hs. exact Hs. Qed.
  Lemma k_get_fsn : keeps get_fsn. Proof. intros s Hs. exact Hs. Qed.
End Keep.

(** New nodes, of which only the file size matters here. *)
Definition tnew : attributes := (Some TFile, None, None, []).
Lemma k_trickle_rec A p fuel : forall mx, trip (on (inv A p (fun _ => True))) (fillTrickleRec fuel mx) (fun _ => on (inv A p (fun _ => True))) (on (inv A p (fun _ => True))).
Proof.
  assert (HB : forall f b, tgood f -> attrs f = A -> GetBytes f = Ok b -> True) by auto.
  revert A p HB. induction fuel as [|f IH]; intros A p HB mx; cbn [fillTrickleRec]; [apply trip_fuel|]. eapply trip_bind; [apply (k_layer A p _ HB)|]. intros ?.
  eapply trip_bind; [|intros ?; apply (k_commit A p _ HB)]. apply k_depth. intros z d _. unfold with_new.
  assert (H0 : inv tnew (proto_prefix (db_builder d)) (fun _ => True) (NewFSNodeOverDag (db_builder d) TFile)).
  { split; [apply (new_below (db_builder d) TFile); now left|]. repeat split. }
  pose proof (IH tnew (proto_prefix (db_builder d)) (fun _ _ _ _ _ => Logic.I) z (_, d) H0) as H.
  destruct (fillTrickleRec f z _) as [[[]| | |] [n' d2]]; try exact Logic.I. apply tgood_size, H.
Qed.
Lemma k_subtree fuel z : makes (new_subtree fuel z).
Proof.
  intros d _. unfold new_subtree, with_new.
  assert (H0 : inv tnew (proto_prefix (db_builder d)) (fun _ => True) (NewFSNodeOverDag (db_builder d) TFile)).
  { split; [apply (new_below (db_builder d) TFile); now left|]. repeat split. }
  pose proof (k_trickle_rec tnew (proto_prefix (db_builder d)) fuel z (_, d) H0) as H.
  destruct (fillTrickleRec fuel z _) as [[[]| | |] [n' d2]]; try exact Logic.I. apply tgood_size, H.
Qed.

Definition decodes (A : attributes) (b : bytes) : Prop := exists g, FSNodeFromBytes b = Ok g /\ attrs g = A.
Lemma decodes_commit A f b : tgood f -> attrs f = A -> GetBytes f = Ok b -> decodes A b.
Proof. intros (Hg & _) Ha E. exists f. split; [eapply unmarshal_marshal; eassumption|exact Ha]. Qed.
Lemma open_inv p b ls n : NewFSNFromDag p b ls = Ok n -> exists f, FSNodeFromBytes b = Ok f /\ inv (attrs f) p (decodes (attrs f)) n.
Proof.
  unfold NewFSNFromDag. destruct (FSNodeFromBytes b) as [f| | |] eqn:E; try discriminate. intros [= <-]. exists f. split; [reflexivity|].
  destruct (unmarshal_good _ _ E) as [Hg [t Ht]]. split; [split; [exact Hg|]; cbn [f_file]; congruence|]. split; [reflexivity|]. split; [reflexivity|]. exists f. auto.
Qed.

Lemma k_last_child A p fuel rec depth rep :
  (forall A p z, trip (on (inv A p (decodes A))) (rec z) (fun _ => on (inv A p (decodes A))) (on (inv A p (decodes A)))) ->
  trip (on (inv A p (decodes A))) (appendFillLastChild fuel rec depth rep) (fun _ => on (inv A p (decodes A))) (on (inv A p (decodes A))).
Proof.
  intros Hr s Hs. unfold appendFillLastChild. rewrite bind_at. cbn [get_fsn]. rewrite bind_at. cbn [get_db].
  destruct (_ <=? _); [exact Hs|]. cbv zeta. rewrite bind_at. unfold lift at 1.
  destruct (GetChild _ _ _) as [c| | |] eqn:Ec; try exact Hs.
  assert (Hc : exists A' p', inv A' p' (decodes A') c).
  { unfold GetChild in Ec. destruct (_ <? 0); [discriminate|]. destruct (nth_error _ _) as [l|]; [|discriminate].
    destruct (dserv_get (db_w (snd s)) (lto l)) as [k| | |]; try discriminate. cbn [rbind] in Ec.
    destruct k as [|q b ls]; [discriminate|]. destruct (open_inv _ _ _ _ Ec) as (f & _ & H). eauto. }
  destruct Hc as (A' & p' & Hc).
  rewrite bind_at. unfold on_fsn at 1. pose proof (Hr A' p' (depth - 1) (c, snd s) Hc) as Hc'.
  destruct (rec (depth - 1) (c, snd s)) as [[[]| | |] [c' d']]; try exact Hs. unfold on in Hc'. cbn [fst] in Hc'.
  rewrite bind_at. unfold lift at 1. destruct (RemoveChild _ _) as [n1| | |] eqn:En; try exact Hs.
  assert (Hn1 : inv A p (decodes A) n1).
  { destruct Hs as (H1 & H2 & H3 & H4). unfold RemoveChild in En. destruct (RemoveBlockSize _ _) as [f1| | |] eqn:Ef; try discriminate. cbn [rbind] in En. destruct (_ <=? _); [discriminate|]. injection En as <-.
    split; cbn [f_file f_links]; [eapply tgood_remove; [apply H1|exact Ef]|]. split; [|split; assumption].
    unfold RemoveBlockSize in Ef. destruct (_ || _); [discriminate|]. destruct (nth_error _ _); [|discriminate]. injection Ef as <-. exact H2. }
  rewrite bind_at. cbn [set_fsn]. rewrite bind_at. unfold lift at 1. destruct (Commit c') as [c2| | |]; try exact Hn1. cbn [fst snd].
  refine (trip_bind _ _ (fun s => on (inv A p (decodes A)) s /\ zok ((GetDagNode c2, None), fFileSize c')) (fun _ => on (inv A p (decodes A))) (fun _ => on (inv A p (decodes A))) (on (inv A p (decodes A))) (k_AddChild A p _ _ _) _ (n1, d') _).
  - intros u. apply trip_if; [apply trip_ret|]. apply k_add_children. apply k_subtree.
  - split; [exact Hn1|]. apply tgood_size, Hc'.
Qed.
Lemma k_append_rec fuel rfuel : forall A p mx, trip (on (inv A p (decodes A))) (appendRec fuel rfuel mx) (fun _ => on (inv A p (decodes A))) (on (inv A p (decodes A))).
Proof.
  induction rfuel as [|rf IH]; intros A p mx; pose proof (decodes_commit A) as HB; cbn [appendRec]; (apply trip_if; [apply trip_ret|]);
    (eapply trip_bind; [apply k_done|]); intros [|]; try apply trip_ret; [apply trip_fuel|].
  eapply trip_bind; [apply k_get_fsn|]. intros n. eapply trip_bind; [apply k_get_db|]. intros b.
  destruct (trickleDepthInfo n (db_maxlinks b)) as [d0 rep].
  eapply trip_bind with (Q := fun _ => on (inv A p (decodes A))); [apply trip_if; [eapply trip_bind; [apply (k_layer _ _ _ HB)|intros []; apply trip_ret]|apply trip_ret]|].
  intros depth. apply trip_if; [apply trip_ret|]. eapply trip_bind; [apply k_last_child, IH|]. intros [].
  eapply trip_bind; [apply k_done|]. intros d2. apply trip_if; [|apply trip_ret].
  apply k_depth, k_subtree.
Qed.
Lemma k_append_body A p fuel rfuel : trip (on (inv A p (decodes A))) (append_body fuel rfuel) (fun _ => on (inv A p (decodes A))) (on (inv A p (decodes A))).
Proof.
  pose proof (decodes_commit A) as HB.
  unfold append_body. eapply trip_bind; [apply k_get_fsn|]. intros n. eapply trip_bind; [apply k_get_db|]. intros b.
  destruct (trickleDepthInfo n (db_maxlinks b)) as [d0 rep]. eapply trip_bind with (Q := fun c => on (inv A p (decodes A))).
  - apply trip_if; [|apply trip_ret]. eapply trip_bind; [apply (k_layer _ _ _ HB)|]. intros [].
    eapply trip_bind; [apply k_done|]. intros d2. apply trip_ret.
  - intros [depth|]; [|apply trip_ret].
    eapply trip_bind; [apply k_last_child; intros; apply k_append_rec|]. intros [].
    eapply trip_bind; [apply k_done|]. intros d2.
    eapply trip_bind; [apply k_depth, k_subtree|]. intros []. apply (k_commit _ _ _ HB).
Qed.
Lemma append_kind fuel rfuel dbp fi spl base w :
  let '(r, base', _) := trickle_append fuel rfuel dbp fi spl base w in kind base' = kind base /\ (forall root, r = Ok root -> kind root = kind base).
Proof.
  unfold trickle_append. destruct (New dbp fi spl w) as [d| | |]; try (split; [reflexivity|discriminate]). unfold Append.
  destruct base as [p b|p b ls]; [split; [reflexivity|discriminate]|]. destruct (NewFSNFromDag p b ls) as [n| | |] eqn:En; try (split; [reflexivity|discriminate]).
  destruct (open_inv _ _ _ _ En) as (f & Ef & Hn). pose proof (k_append_body (attrs f) p fuel rfuel (n, d) Hn) as H.
  assert (X : forall n', inv (attrs f) p (decodes (attrs f)) n' -> kind (GetDagNode n') = kind (NProto p b ls)).
  { intros n' (_ & _ & E & (g & Eg & Ea)). cbn [GetDagNode kind]. rewrite Eg, Ef, E. cbn [rmap]. now rewrite Ea. }
  destruct (append_body fuel rfuel (n, d)) as [[[]| | |] [n' d']]; pose proof (X _ H) as F; (split; [exact F|]); try discriminate. intros root [= <-]. exact F.
Qed.

(** ** Overwriting *)

Lemma seal_kind n : kind (seal n) = kind n. Proof. now destruct n. Qed.
Lemma modify_leaf_kind n off buf w : node_links n = [] -> let '(r, _, _) := modify_leaf n off buf w in forall k, r = Ok k -> kind k = kind n.
Proof.
  intros Hn. unfold modify_leaf. destruct n as [p d|p b ls].
  - destruct (_ <? _); [discriminate|]. destruct (buf_read _ _) as [new buf'].
    pose proof (add_leaf_ok (NRaw p (ztake off d ++ new)) buf' w) as H. destruct (add_leaf _ _ _) as [[r ?] ?]. intros k E. rewrite (H k E). reflexivity.
  - destruct (FSNodeFromBytes b) as [f| | |] eqn:Ef; try discriminate. destruct (_ <? _); [discriminate|].
    destruct (buf_read _ _) as [new buf'] eqn:Eb.
    assert (El : zlen (ztake off (getData f) ++ new) = zlen (getData f)).
    { pose proof (buf_read_len (zdrop off (getData f)) buf) as L. rewrite Eb in L. cbn [fst] in L. rewrite zlen_app, L. apply cut_len. }
    destruct (leaf_encode b f (option_map (fun _ => ztake off (getData f) ++ new) (d_data f)) Ef) as (b' & E1 & E2 & E3).
    { unfold getData in *. destruct (d_data f); cbn [option_map obytes] in *; [exact El|reflexivity]. }
    { destruct (d_data f); cbn; split; intros X; try discriminate X; reflexivity. }
    rewrite E1. pose proof (add_leaf_ok (NProto p b' []) buf' w) as H. destruct (add_leaf _ _ _) as [[r ?] ?]. intros k E. rewrite (H k E), seal_kind.
    cbn [kind]. rewrite E2, Ef. reflexivity.
Qed.
Lemma modifyDag_kind fuel n off buf w :
  let '(r, _, _, n') := modifyDag fuel n off buf w in kind n' = kind n /\ (forall k, r = Ok k -> kind k = kind n).
Proof.
  destruct fuel as [|f]; cbn [modifyDag]; destruct (node_links n) as [|l0 r0] eqn:En;
    try (pose proof (modify_leaf_kind n off buf w En) as H; destruct (modify_leaf n off buf w) as [[? ?] ?]; exact (conj eq_refl H));
    destruct n as [p d|p b ls]; cbn [node_links] in En; try discriminate; subst ls;
    destruct (FSNodeFromBytes b) as [fs| | |] eqn:Ef; try (split; [reflexivity|discriminate]).
  destruct (modify_links _ _ _ _ _ _ _ _) as [[[x ls'] buf'] w'].
  destruct x as [[]| | |]; try (split; [reflexivity|discriminate]).
  destruct (dserv_add _ _ w') as [[[]| | |] w2]; (split; [reflexivity|]); try discriminate. intros k [= <-]. reflexivity.
Qed.

(** ** Truncating *)

(** A cut keeps the kind, but a block of data becomes a plain one. *)
Definition cut_kind (n k : node) : Prop :=
  kind k = kind n \/ (node_links n = [] /\ fst (kind k) = fst (kind n) /\ snd (kind n) <> None /\ snd (kind k) = Some (Ok plain_block)).
Lemma trunc_links_attrs rec : forall ls i cur size f w, tgood f ->
  let '(r, _) := trunc_links rec ls i cur size f w in forall x f', r = Ok (x, f') -> tgood f' /\ attrs f' = attrs f.
Proof.
  assert (Ha : forall z f, attrs (AddBlockSize z f) = attrs f) by (intros z f; now rewrite AddBlockSize_eq).
  induction ls as [|l r IH]; intros i cur size f w Hf; cbn [trunc_links]; [intros x f' [= _ <-]; auto|].
  destruct (dserv_get w (lto l)) as [child| | |]; try discriminate. destruct (fileSize child) as [cs| | |] eqn:Ec; try discriminate. destruct (_ <? _).
  - destruct (rec child _ w) as [[nc| | |] w']; try discriminate. intros x f' [= _ <-]. split; [apply tgood_add; [apply u64_range|exact Hf]|apply Ha].
  - assert (Hcs : in_u64 cs).
    { destruct child as [q d|q b ls]; cbn [fileSize] in Ec; [injection Ec as <-; apply u64_range|]. destruct (FSNodeFromBytes b) as [g| | |] eqn:Eg; try discriminate. cbn [rbind] in Ec. injection Ec as <-.
      destruct (unmarshal_good _ _ Eg) as [Hg [t Ht]]. apply tgood_size. split; [exact Hg|congruence]. }
    specialize (IH (S i) (u64 (cur + cs)) size (AddBlockSize cs f) w (tgood_add _ _ Hcs Hf)). destruct (trunc_links _ _ _ _ _ _ _) as [r0 w']. rewrite Ha in IH. exact IH.
Qed.
Lemma dagTruncate_kind fuel n size w : let '(r, _) := dagTruncate fuel n size w in forall k, r = Ok k -> cut_kind n k.
Proof.
  assert (L : forall p b size w, let '(r, _) := dagTruncate 0 (NProto p b []) size w in forall k, r = Ok k -> cut_kind (NProto p b []) k).
  { intros p b sz w0. cbn [dagTruncate node_links]. destruct (FSNodeFromBytes b) as [f| | |] eqn:Ef; try discriminate. destruct (_ <? _); [discriminate|].
    destruct (WrapData _) as [b'| | |] eqn:Ew; try discriminate. intros k [= <-]. right. split; [reflexivity|]. split; [reflexivity|]. split; [discriminate|].
    cbn [kind snd]. destruct (unmarshal_good _ _ Ef) as [((_ & Hz & _) & _) _].
    edestruct (WrapData_decode (option_map (ztake sz) (d_data f))) as (b2 & E2 & Hd).
    { destruct (d_data f) as [v|]; cbn [option_map obytes]; [|reflexivity]. pose proof (zlen_firstn_le (Z.to_nat sz) v) as L. unfold ztake. lia. }
    rewrite Ew in E2. injection E2 as <-. unfold FSNodeFromBytes. rewrite Hd. reflexivity. }
  destruct fuel as [|fu]; cbn [dagTruncate]; destruct n as [p d|p b [|l0 ls]]; cbn [node_links] in *.
  1,4: destruct (_ <? _); try discriminate; intros k [= <-]; now left.
  1,3: exact (L p b size w).
  - destruct (FSNodeFromBytes b); discriminate.
  - destruct (FSNodeFromBytes b) as [f| | |] eqn:Ef; try discriminate. destruct (unmarshal_good _ _ Ef) as [Hg [t Ht]].
    assert (Hf : tgood f) by (split; [exact Hg|congruence]).
    pose proof (trunc_links_attrs (dagTruncate fu) (l0 :: ls) 0 0 size (RemoveAllBlockSizes f) w (RemoveAll_tgood f Hf)) as H.
    destruct (trunc_links _ _ _ _ _ _ _) as [[[[[e modified]|] f']| | |] w']; try discriminate. destruct (H _ _ eq_refl) as (Hf' & Ha).
    destruct (dserv_add modified None w') as [[[]| | |] w2]; try discriminate.
    destruct (GetBytes f') as [d| | |] eqn:Ed; try discriminate. intros k [= <-]. left. cbn [kind]. rewrite Ef.
    assert (Hd : FSNodeFromBytes d = Ok f') by (eapply unmarshal_marshal; [apply Hf'|exact Ed]). rewrite Hd. cbn [rmap]. now rewrite Ha.
Qed.

(** ** The modifier *)

Section Mod.
  (** Kinds of node allowed. *)
  Variable S : prefix * option (res attributes) -> Prop.
  Definition kcur (m : modifier) : Prop := match m_node m with Some n => S (kind n) | None => True end.
  Definition KJ (s : mst) : Prop := kcur (fst s).
  Notation safe m := (trip KJ m (fun _ => KJ) KJ).
  Lemma ks_same {X} (m : M mst X) : (forall s, m_node (fst (snd (m s))) = m_node (fst s)) -> safe m.
  Proof. intros Hn s H. assert (H' : KJ (snd (m s))) by (unfold KJ, kcur; now rewrite Hn). destruct (m s) as [[a| | |] s']; exact H'. Qed.
  Lemma ks_lift {X} (r : res X) : safe (lift r).
  Proof. intros s H. unfold lift. destruct r; exact H. Qed.
  Lemma ks_throw {X} e : safe (throw (A := X) e).
  Proof. intros s H. exact H. Qed.
  Lemma ks_ret {X} (a : X) : safe (ret a).
  Proof. intros s H. exact H. Qed.
  Lemma ks_bind {X Y} (m : M mst X) (k : X -> M mst Y) : safe m -> (forall a, safe (k a)) -> safe (bind m k).
  Proof. intros Hm Hk. eapply trip_bind; [exact Hm|exact Hk]. Qed.
  Lemma ks_get_mod : safe get_mod.
  Proof. now apply ks_same. Qed.
  Lemma ks_cur_node : safe cur_node.
  Proof. apply ks_same; intros s; unfold cur_node; now destruct (m_node (fst s)) eqn:E. Qed.
  Lemma ks_mod_add n : safe (mod_add n).
  Proof. apply ks_same. intros s. unfold mod_add. now destruct (dserv_add n None (snd s)) as [[]]. Qed.
  Lemma ks_append_cur chunks : trip KJ (append_cur chunks) (fun nn s => S (kind nn) /\ KJ s) KJ.
  Proof.
    intros [m w] HJ. unfold append_cur. cbn [fst snd]. pose proof HJ as HJ'. unfold KJ, kcur in HJ. cbn [fst snd] in HJ.
    destruct (m_node m) as [n|] eqn:En; [|exact HJ']. unfold appendData.
    match goal with |- context [trickle_append ?a ?b ?c ?d ?e ?f ?g] => pose proof (append_kind a b c d e f g) as H;
      destruct (trickle_append a b c d e f g) as [[r n'] w'] end. destruct H as (F & H). rewrite <- F in HJ.
    destruct r as [root| | |]; try exact HJ. split; [rewrite (H root eq_refl), <- F; exact HJ|exact HJ].
  Qed.
  Lemma ks_expand size : safe (expandSparse size).
  Proof. unfold expandSparse. eapply trip_bind; [apply ks_append_cur|]. intros nn s (_ & H). exact (ks_mod_add nn s H). Qed.
  Lemma ks_modify_cur : trip KJ modify_cur (fun k s => S (kind k) /\ KJ s) KJ.
  Proof.
    intros [m w] HJ. pose proof HJ as HJ'. unfold modify_cur, KJ, kcur in *. cbn [fst snd] in *.
    destruct (m_node m) as [n|] eqn:En, (m_buf m) as [buf|] eqn:Eb; try (cbn [fst]; rewrite En; exact HJ).
    pose proof (modifyDag_kind (weight n) n (m_start m) buf w) as H.
    destruct (modifyDag _ _ _ _ _) as [[[r buf'] w'] n']. destruct H as (F & H). cbn [fst snd m_set_buf m_set_node m_node]. rewrite <- F in HJ.
    destruct r as [k| | |]; try exact HJ. split; [rewrite (H k eq_refl), <- F; exact HJ|exact HJ].
  Qed.
  Lemma ks_get_cur k : trip (fun s => S (kind k) /\ KJ s) (get_cur k) (fun _ => KJ) KJ.
  Proof.
    intros [m w] (Hk & HJ). unfold get_cur. cbn [fst snd]. pose proof (get_cases w k) as G. destruct (dserv_get w k) as [n| | |]; try exact HJ; [|exact Logic.I]. subst n. exact Hk.
  Qed.
  Hint Resolve ks_ret ks_lift ks_throw ks_get_mod ks_cur_node ks_mod_add ks_expand : kinddb.
  Ltac kind_seq :=
    repeat (intros; first [ solve [auto with kinddb nocore] | apply ks_bind
      | match goal with |- trip _ (match ?x with _ => _ end) _ _ => destruct x end
      | apply ks_same; intros; cbn; repeat (match goal with |- context [match ?x with _ => _ end] => destruct x end; cbn; try reflexivity); reflexivity ]).
  Variable split : bytes -> list bytes.
  Variable wbsize : Z.
  Lemma ks_overwrite (k : M mst unit) : safe k -> safe (bind modify_cur (fun c => bind (get_cur c) (fun _ => k))).
  Proof. intros Hk. eapply trip_bind; [apply ks_modify_cur|]. intros c. eapply trip_bind; [apply ks_get_cur|]. intros u. exact Hk. Qed.
  Lemma ks_append_rest buf : safe (bind (append_buf split buf) (fun nn => mod_add nn)).
  Proof.
    apply ks_bind; [|intros nn; apply ks_mod_add]. intros s HJ. pose proof (ks_append_cur (split buf) s HJ) as H. unfold append_buf.
    destruct (append_cur (split buf) s) as [[n|e| |] [m w]]; try exact H; [|exact Logic.I]. exact (proj1 H).
  Qed.
  Hint Resolve ks_append_rest : kinddb.
  Lemma ks_Sync : safe (Sync split).
  Proof.
    unfold Sync. apply ks_bind; [apply ks_get_mod|]. intros m0. destruct (m_buf m0) as [buf0|]; [|apply ks_ret].
    apply ks_bind; [kind_seq|]. intros []. apply ks_bind; [apply ks_cur_node|]. intros n0. apply ks_bind; [apply ks_lift|]. intros fs.
    apply ks_bind; [kind_seq|]. intros []. apply ks_overwrite. kind_seq.
  Qed.
  Hint Resolve ks_Sync : kinddb.
  Lemma ks_Size : safe mSize.
  Proof. unfold mSize. kind_seq. Qed.
  Hint Resolve ks_Size : kinddb.
  Lemma ks_Write b : safe (mWrite split wbsize b).
  Proof. unfold mWrite. kind_seq. Qed.
  Hint Resolve ks_Write : kinddb.
  Lemma ks_WriteAt b off : safe (WriteAt split wbsize b off).
  Proof. unfold WriteAt. kind_seq. Qed.
  Lemma ks_readPrep : safe (readPrep split).
  Proof. unfold readPrep. kind_seq. apply ks_same; intros s; now destruct (m_node (fst s)) eqn:E. Qed.
  Hint Resolve ks_readPrep : kinddb.
  Lemma ks_Read k : safe (mRead split k).
  Proof. unfold mRead. kind_seq. Qed.
  Lemma ks_read_seek off wh : safe (read_seek off wh).
  Proof.
    apply ks_same; intros s; unfold read_seek; destruct (m_read (fst s)) as [r'|]; try reflexivity;
    destruct (Seek (snd s) off wh r') as [[i e] r2]; reflexivity.
  Qed.
  Hint Resolve ks_read_seek : kinddb.
  Lemma ks_Seek off wh : safe (mSeek split off wh).
  Proof. unfold mSeek. kind_seq. Qed.
  Lemma ks_GetNode : trip KJ (mGetNode split) (fun n s => S (kind n) /\ KJ s) KJ.
  Proof.
    unfold mGetNode. eapply trip_bind; [apply ks_Sync|intros u]. intros s HJ. cbn. unfold KJ, kcur in *. destruct (m_node (fst s)) as [n|] eqn:E; cbn; rewrite ?E; auto.
  Qed.

  Section Cut.
    Hypothesis HS : forall n k, S (kind n) -> cut_kind n k -> S (kind k).
    Lemma ks_truncate_cur size : trip KJ (truncate_cur size) (fun nn s => S (kind nn) /\ KJ s) KJ.
    Proof.
      intros [m w] HJ. pose proof HJ as HJ'. unfold truncate_cur, KJ, kcur in *. cbn [fst snd] in *. destruct (m_node m) as [n|] eqn:En; [|cbn [fst]; now rewrite En].
      pose proof (dagTruncate_kind (weight n) n size w) as H. destruct (dagTruncate _ _ _ _) as [[nn| | |] w']; cbn [fst]; rewrite ?En; try exact HJ.
      specialize (HS n nn HJ (H nn eq_refl)). split; [exact HS|]. destruct n; cbn [m_change_node m_set_node m_node]; [now rewrite En|exact HS].
    Qed.
    Lemma ks_cut size : safe (bind (truncate_cur size) (fun nn => bind (mod_add nn) (fun _ => upd_mod (m_set_node (Some nn))))).
    Proof.
      eapply trip_bind; [apply ks_truncate_cur|]. intros nn.
      eapply trip_bind with (Q := fun _ s => S (kind nn) /\ KJ s).
      - intros s (Hl & HJ). pose proof (ks_mod_add nn s HJ) as H. destruct (mod_add nn s) as [[a| | |] s']; try exact H. split; [exact Hl|exact H].
      - intros [] s (Hl & _). exact Hl.
    Qed.
    Hint Resolve ks_cut : kinddb.
    Lemma ks_Truncate size : safe (mTruncate split size).
    Proof. unfold mTruncate. kind_seq. Qed.
  End Cut.

  Lemma ks_after op s : (forall z, op = MTruncate z -> forall n k, S (kind n) -> cut_kind n k -> S (kind k)) -> KJ s -> KJ (mod_after split wbsize op s).
  Proof.
    intros HS HJ.
    assert (K : forall X (m : M mst X), safe m -> KJ (snd (m s))) by (intros X m H; specialize (H s HJ); destruct (m s) as [[?| | |] ?]; exact H).
    destruct op; cbn [mod_after]; apply K;
      first [apply ks_Write|apply ks_WriteAt|apply ks_Seek|apply ks_Truncate; eapply HS; reflexivity|apply ks_Read|apply ks_Size|apply ks_Sync|idtac].
    eapply trip_weaken; [apply ks_GetNode|auto|]. intros a s0 H. apply H.
  Qed.
  Lemma ks_history ops : (forall z, In (MTruncate z) ops -> forall n k, S (kind n) -> cut_kind n k -> S (kind k)) -> forall s, KJ s -> KJ (mod_history split wbsize ops s).
  Proof.
    unfold mod_history. induction ops as [|op ops IH]; intros HS s HJ; cbn [fold_left]; [exact HJ|]. apply IH; [intros z Hz; apply (HS z); now right|].
    apply ks_after; [|exact HJ]. intros z ->. apply (HS z). now left.
  Qed.
End Mod.


Lemma history_kind split wbsize n w ops k s' : forallb (fun o => negb (truncates o)) ops = true ->
  mGetNode split (mod_history split wbsize ops (NewDagModifier n, w)) = (Ok k, s') -> kind k = kind n.
Proof.
  intros Ho E. rewrite forallb_forall in Ho.
  pose proof (ks_history (eq (kind n)) split wbsize ops) as H. specialize (H ltac:(intros z Hz; discriminate (Ho _ Hz)) (NewDagModifier n, w) eq_refl).
  pose proof (ks_GetNode _ split _ H) as G. rewrite E in G. symmetry. apply G.
Qed.

Lemma history_kind_cut split wbsize n w ops k s' :
  mGetNode split (mod_history split wbsize ops (NewDagModifier n, w)) = (Ok k, s') ->
  kind k = kind n \/ (fst (kind k) = fst (kind n) /\ snd (kind n) <> None /\ snd (kind k) = Some (Ok plain_block)).
Proof.
  intros E. set (S := fun x : prefix * option (res attributes) => x = kind n \/ (fst x = fst (kind n) /\ snd (kind n) <> None /\ snd x = Some (Ok plain_block))).
  assert (HS : forall m j, S (kind m) -> cut_kind m j -> S (kind j)).
  { intros m j Hm [->|(_ & H1 & H2 & H3)]; [exact Hm|]. right. destruct Hm as [Hm|(K1 & K2 & K3)]; [rewrite <- Hm; auto|]. split; [congruence|auto]. }
  pose proof (ks_history S split wbsize ops (fun _ _ => HS) (NewDagModifier n, w) (or_introl eq_refl)) as H.
  pose proof (ks_GetNode _ split _ H) as G. rewrite E in G. apply G.
Qed.

Lemma truncate_kind split m w n size : m_node m = Some n -> m_buf m = None -> node_links n <> [] ->
  match m_node (fst (snd (mTruncate split size (m, w)))) with Some k => kind k = kind n | None => False end.
Proof.
  intros Hn Hb Hl. unfold mTruncate. rewrite bind_at. unfold Sync at 1. rewrite bind_at. cbn [get_mod fst]. rewrite Hb. cbn [ret].
  rewrite bind_at. unfold mSize at 1. rewrite bind_at. unfold cur_node. cbn [fst]. rewrite Hn. rewrite bind_at. unfold lift. destruct (fileSize n) as [z| | |]; try (cbn [snd fst]; now rewrite Hn).
  rewrite bind_at. cbn [get_mod fst]. rewrite Hb. cbn [ret]. destruct (size =? _); [cbn [ret snd fst]; now rewrite Hn|]. destruct (_ <? size).
  - unfold expandSparse. rewrite bind_at. unfold append_cur. cbn [fst snd]. rewrite Hn. unfold appendData.
    match goal with |- context [trickle_append ?a ?b ?c ?d ?e ?f ?g] => pose proof (append_kind a b c d e f g) as H;
      destruct (trickle_append a b c d e f g) as [[r n'] w'] end. destruct H as (F & H). destruct r as [root| | |]; try exact F.
    unfold mod_add. destruct (dserv_add _ _ _) as [r2 w2]. exact F.
  - rewrite bind_at. unfold truncate_cur. cbn [fst snd]. rewrite Hn. pose proof (dagTruncate_kind (weight n) n (u64 size) w) as H.
    destruct (dagTruncate _ _ _ _) as [[nn| | |] w']; try (cbn [snd fst]; now rewrite Hn). destruct (H nn eq_refl) as [E|(E & _)]; [|contradiction].
    rewrite bind_at. unfold mod_add. cbn [fst snd]. destruct (dserv_add nn None w') as [[[]| | |] w2]; cbn [snd fst upd_mod m_set_node m_node]; try exact E;
    destruct n; cbn [m_change_node m_set_node m_node]; try (now rewrite Hn); exact E.
Qed.

(** ** Empty files and directories *)

Lemma empty_balanced fuel fi w root w' : BuildDagFromReader fuel fi [] w = (Ok root, w') -> EmptyFileNode = Ok root.
Proof.
  intros E. pose (x := BuildDagFromReader 1 false [] astore). assert (E0 : x = (Ok (ok_node (fst x)), snd x)) by (vm_compute; reflexivity).
  rewrite <- (balanced_det _ _ _ _ _ _ _ _ _ _ _ _ E0 E). vm_compute. reflexivity.
Qed.
Lemma empty_trickle fuel fi w root w' : BuildTrickleDagFromReader fuel fi [] w = (Ok root, w') -> EmptyFileNode = Ok root.
Proof.
  intros E. pose (x := BuildTrickleDagFromReader 2 false [] astore). assert (E0 : x = (Ok (ok_node (fst x)), snd x)) by (vm_compute; reflexivity).
  rewrite <- (trickle_det _ _ _ _ _ _ _ _ _ _ _ _ E0 E). vm_compute. reflexivity.
Qed.
Lemma empty_file : exists n, EmptyFileNode = Ok n /\ file_dag n [[]] /\ recorded_size n 0.
Proof.
  eexists. split; [vm_compute; reflexivity|]. split.
  - change (file_dag ?n [[]]) with (file_dag n [getData (NewFSNode TFile)]). apply fd_leaf; [vm_compute; reflexivity|now left|reflexivity|reflexivity].
  - apply recorded_dec. vm_compute. reflexivity.
Qed.
Lemma empty_dir : exists n d, EmptyDirNode = Ok n /\ NewDirectory None = Ok (DBasic d) /\ NewDirectoryFromNode n = Ok (DBasic d) /\
  NProto (b_prefix d) (b_data d) (b_links d) = n /\ b_links d = [].
Proof. eexists _, _. split; [vm_compute; reflexivity|]. split; [vm_compute; reflexivity|]. vm_compute. repeat split. Qed.

(** ** A file with a mode and a modification time *)

(** Type File, data "ab", size 2, and the fields 7 (mode) and 8 (time) of UnixFS 1.5,
    which this version does not know. *)
Definition mode : bytes := [x38; xed; x03; x42; x02; x08; x01].
Definition dated (t : list byte) : node := NProto v0prefix (t ++ mode) [].
Definition dated_file : node := dated [x08; x02; x12; x02; x61; x62; x18; x02].
Definition single (b : bytes) : list bytes := [b].
Lemma cut_refuted : exists split n w k,
  kind n = (v0prefix, Some (Ok (Some TFile, None, None, mode))) /\
  fst (mTruncate split 1 (NewDagModifier n, w)) = Ok tt /\
  m_node (fst (snd (mTruncate split 1 (NewDagModifier n, w)))) = Some k /\
  kind k = (v0prefix, Some (Ok plain_block)).
Proof.
  exists single, dated_file, astore. eexists. split; [vm_compute; reflexivity|]. split; [vm_compute; reflexivity|]. split; [vm_compute; reflexivity|]. vm_compute. reflexivity.
Qed.
Lemma cut_empty_refuted : exists split n w w' k, BuildDagFromReader 1 false [EvData [x61]] w = (Ok n, w') /\
  fst (mTruncate split 0 (NewDagModifier n, w')) = Ok tt /\
  m_node (fst (snd (mTruncate split 0 (NewDagModifier n, w')))) = Some k /\ EmptyFileNode <> Ok k.
Proof.
  pose (x := BuildDagFromReader 1 false [EvData [x61]] astore).
  exists single, (ok_node (fst x)), astore, (snd x). eexists. split; [vm_compute; reflexivity|]. split; [vm_compute; reflexivity|]. split; [vm_compute; reflexivity|]. vm_compute. discriminate.
Qed.
