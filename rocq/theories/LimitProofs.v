(** The limit on the size of blocks is kept by everything an import, an append or a modifier
    does. *)
From Verif Require Import Base Pb PbProofs FSNode FSNodeProofs Dag DagProofs Builder Balanced Trickle Importer Reader Modifier SpecFile SpecModifier SpecLimit
  BuilderProofs AppendProofs GrowProofs ModifierProofs ModifierRun ModifierFacts AppendRun SizesProofs KindProofs FormatProofs.

Section Small.
  (** The limit, and the blocks that were in the store before. *)
  Variables (L : Z) (a0 : list (node * option Z)).
  Hypothesis HL : 0 <= L.
  Notation fmt := (small L).
  Definition data_ok (d : bytes) : Prop := forall fs, FSNodeFromBytes d = Ok fs -> zlen (getData fs) <= L.

  Lemma fmt_raw p d : fmt (NRaw p d) <-> zlen d <= L.
  Proof.
    split; [intros H; exact (H _ _ (reach_self _) (bd_raw _ _))|]. intros H m x Hm Hx. inversion Hm; subst; [inversion Hx; subst; exact H|]. contradiction.
  Qed.
  Lemma fmt_node p d ls : fmt (NProto p d ls) <-> data_ok d /\ forall l, In l ls -> fmt (lto l).
  Proof.
    split.
    - intros H. split; [intros fs E; exact (H _ _ (reach_self _) (bd_proto _ _ _ _ E))|]. intros l Hl m x Hm. apply H. eapply reach_link; [|exact Hm]. exact Hl.
    - intros (H1 & H2) m x Hm Hx. inversion Hm; subst; [inversion Hx; subst; now apply H1|]. eapply H2; eassumption.
  Qed.
  Lemma fmt_links n l : fmt n -> In l (node_links n) -> fmt (lto l).
  Proof. intros H Hl m x Hm. apply H. eapply reach_link; eassumption. Qed.
  Lemma fmt_seal n : fmt n -> fmt (seal n).
  Proof. destruct n as [p d|p d ls]; [auto|]. cbn [seal]. rewrite !fmt_node. intros (H1 & H2). split; [exact H1|]. intros l Hl. apply H2. now apply In_lsort. Qed.

  Definition wok (w : world) : Prop := forall x, In x (w_added w) -> In x a0 \/ fmt (fst x).
  Lemma add_wok n o w : fmt n -> wok w -> wok (snd (dserv_add n o w)).
  Proof.
    intros Hn Hw. unfold dserv_add. destruct (w_addok w (w_calls w)); [|exact Hw]. intros x Hx. cbn in Hx. apply in_app_iff in Hx. destruct Hx as [Hx|[<-|[]]]; [now apply Hw|].
    right. now apply fmt_seal.
  Qed.

  (** ** The builder *)

  Definition dbok (d : db) : Prop := Forall (fun e => match e with EvData c => fits L c | EvErr _ => True end) (db_spl d) /\ match db_next d with Some c => fits L c | None => True end /\ wok (db_w d).
  Definition nok (n : fsn) : Prop := (tgood (f_file n) /\ zlen (getData (f_file n)) <= L /\ data_ok (f_bytes n)) /\ forall l, In l (f_links n) -> fmt (lto l).
  Definition ok (s : fsn * db) : Prop := nok (fst s) /\ dbok (snd s).
  Notation keeps m := (trip ok m (fun _ => ok) ok).
  Notation good c := (fmt (fst (fst c)) /\ zok c).
  Notation makes m := (trip dbok m (fun (c : xnode * Z) d => good c /\ dbok d) dbok).
  Notation stays m := (trip dbok m (fun _ => dbok) dbok).

  Lemma nok_fmt n : nok n -> fmt (GetDagNode n).
  Proof. intros ((_ & _ & H) & H2). apply fmt_node. split; assumption. Qed.
  Lemma prepare_ok d : dbok d -> dbok (prepareNext d).
  Proof.
    intros (H1 & H2 & H3). unfold prepareNext. destruct (db_next d) as [c|] eqn:En, (db_err d) eqn:Ee; try (split; [exact H1|rewrite En; split; assumption]).
    destruct (db_spl d) as [|[c|e] t] eqn:Es; [split; [rewrite Es; constructor|rewrite En; split; assumption]|..]; inversion H1; subst; split; auto.
  Qed.
  Lemma done_ok : stays Done.
  Proof. intros d H. unfold Done. apply prepare_ok in H. destruct (db_err (prepareNext d)); exact H. Qed.
  Lemma next_ok : stays Next.
  Proof. intros d H. unfold Next. apply prepare_ok in H. destruct H as (H1 & H2 & H3). cbn. destruct (db_err (prepareNext d)); (split; [exact H1|split; [exact Logic.I|exact H3]]). Qed.
  Lemma next_fits d data d1 : dbok d -> Next d = (Ok data, d1) -> fits L (obytes data).
  Proof.
    intros H. unfold Next. apply prepare_ok in H. destruct H as (_ & H & _). cbn [db_err db_set_input]. destruct (db_err (prepareNext d)); [discriminate|]. intros [= <- _].
    destruct (db_next (prepareNext d)); [exact H|left; exact HL].
  Qed.
  Lemma add_ok x : fmt (fst x) -> stays (Add x).
  Proof.
    intros Hx d (H1 & H2 & H3). unfold Add. pose proof (add_wok (fst x) (snd x) (db_w d) Hx H3) as H. destruct (dserv_add _ _ _) as [[[]| | |] w']; split; auto.
  Qed.
  Lemma encoded_ok f d : tgood f -> zlen (getData f) <= L -> GetBytes f = Ok d -> data_ok d.
  Proof. intros (Hg & _) Hl E fs E'. assert (X : FSNodeFromBytes d = Ok f) by (eapply unmarshal_marshal; eassumption). congruence. Qed.
  Lemma leaf_node_fmt data t d n : leaf_ok t -> fits L (obytes data) -> NewLeafNode data t d = Ok n -> fmt n.
  Proof.
    intros Ht Hf E. unfold NewLeafNode in E. destruct (_ <? _) eqn:Eb; [discriminate|]. apply Z.ltb_ge in Eb. assert (Hl : zlen (obytes data) <= L) by (unfold fits, BlockSizeLimit in *; lia). destruct (db_raw d) eqn:Er.
    - injection E as <-. now apply fmt_raw.
    - unfold Commit in E. destruct (GetBytes _) as [b'| | |] eqn:Eg; try discriminate. cbn [rbind] in E. injection E as <-. apply fmt_node. split; [|intros l []].
      cbn [SetFileData NewFSNodeOverDag f_file] in Eg. destruct (SetData_New t data) as (E1 & _ & _ & _ & _ & _ & _ & E8). eapply encoded_ok; [| |exact Eg].
      + split; [apply good_leaf; [exact Ht|unfold BlockSizeLimit, two64 in *; lia]|]. rewrite E1. discriminate.
      + unfold getData. now rewrite E8.
  Qed.
  Lemma f_leaf t : leaf_ok t -> makes (NewLeafDataNode t).
  Proof.
    intros Ht d H. pose proof (leaf_zok t d Logic.I) as Z. unfold NewLeafDataNode in *. rewrite bind_at in *. pose proof (next_ok d H) as Hn. pose proof (next_fits d) as Hx. destruct (Next d) as [[data| | |] d1]; try exact Hn. specialize (Hx _ _ H eq_refl).
    unfold bind at 1 in Z. unfold bind at 1. destruct (NewLeafNode data t d1) as [n| | |] eqn:En; try exact Hn. pose proof (leaf_node_fmt _ _ _ _ Ht Hx En) as Hf.
    unfold bind at 1, ProcessFileStore in Z; unfold bind at 1, ProcessFileStore. destruct (db_fs d1), n; cbn [ret] in *; (split; [split; [exact Hf|exact Z]|]); exact Hn.
  Qed.
  Lemma new_nok b t : leaf_ok t -> nok (NewFSNodeOverDag b t).
  Proof.
    intros Ht. split; [|intros l []]. split; [destruct (new_below b t Ht) as [H _]; exact H|]. split; [exact HL|]. intros fs E. discriminate.
  Qed.

  Lemma f_on_db {X} (m : M db X) (Q : X -> Prop) : trip dbok m (fun a d => Q a /\ dbok d) dbok -> trip ok (on_db m) (fun a s => ok s /\ Q a) ok.
  Proof.
    intros H [n d] (Hn & Hd). unfold on_db. cbn [fst snd] in *. specialize (H d Hd). destruct (m d) as [[a| | |] d']; try (split; [exact Hn|exact H]).
    split; [split; [exact Hn|apply H]|apply H].
  Qed.
  Lemma f_done : keeps (on_db Done).
  Proof. intros [n d] (Hn & Hd). unfold on_db. cbn [fst snd] in *. pose proof (done_ok d Hd) as H. destruct (Done d) as [[a| | |] d']; (split; [exact Hn|exact H]). Qed.
  Lemma f_AddChild x z : trip (fun s => ok s /\ good (x, z)) (AddChild x z) (fun _ => ok) ok.
  Proof.
    intros [n d] ((((H1 & H1' & H1'') & H2) & Hd) & Hx & Hz). unfold AddChild. cbn [fst snd] in *. pose proof (add_ok x Hx d Hd) as H.
    assert (Hn : nok (mkFsn (f_prefix n) (f_bytes n) (f_links n ++ [make_link [] (fst x)]) (AddBlockSize z (f_file n)))).
    { split; [split; [now apply tgood_add|split; [cbn [f_file]; rewrite AddBlockSize_eq; exact H1'|exact H1'']]|]. cbn [f_links]. intros l Hl. apply in_app_iff in Hl. destruct Hl as [Hl|[<-|[]]]; [auto|now apply fmt_seal]. }
    destruct (Add x d) as [[[]| | |] d']; (split; [exact Hn|exact H]).
  Qed.
  Lemma commit_nok n n' : Commit n = Ok n' -> nok n -> nok n'.
  Proof.
    unfold Commit. destruct (GetBytes _) eqn:E; try discriminate. cbn [rbind]. intros [= <-] ((H1 & H2 & H3) & H4). split; [|exact H4]. split; [exact H1|]. split; [exact H2|]. cbn [f_bytes]. eapply encoded_ok; eassumption.
  Qed.
  Lemma f_commit : keeps commit.
  Proof.
    intros [n d] (Hn & Hd). unfold commit. cbn [fst snd] in *. pose proof (commit_nok n) as C. destruct (Commit n) as [n'| | |]; (split; [|exact Hd]); try exact Hn. now apply C.
  Qed.
  Lemma f_fill mk : makes mk -> forall fuel, keeps (fill_loop mk fuel).
  Proof.
    intros Hm. induction fuel as [|f IH]; intros s Hs; cbn [fill_loop]; (destruct (_ <? _); [|exact Hs]); revert s Hs;
      match goal with |- forall s, _ -> match ?m s with _ => _ end => change (keeps m) end.
    all: eapply trip_bind; [apply f_done|]; intros dn; apply trip_if; [apply trip_ret|];
      eapply trip_bind; [apply (f_on_db mk (fun c => good c)), Hm|]; intros [x z]; eapply trip_bind; [apply (f_AddChild x z)|]; intros u; first [apply trip_fuel|exact IH].
  Qed.
  Lemma f_layer : keeps FillNodeLayer.
  Proof. intros s Hs. unfold FillNodeLayer. refine (trip_bind _ _ ok (fun _ => ok) (fun _ => ok) ok _ _ s Hs); [apply f_fill, f_leaf; right; reflexivity|intros u; apply f_commit]. Qed.
  Lemma f_add_children mk : makes mk -> forall k, keeps (add_children mk k).
  Proof.
    intros Hm. induction k as [|k IH]; cbn [add_children]; [apply trip_ret|]. eapply trip_bind; [apply f_done|]. intros dn. apply trip_if; [apply trip_ret|].
    eapply trip_bind; [apply (f_on_db mk (fun c => good c)), Hm|]. intros [x z]. eapply trip_bind; [apply (f_AddChild x z)|]. intros ?. exact IH.
  Qed.
  Lemma f_depth fill : (forall z, makes (fill z)) -> forall fuel depth mx, keeps (depth_loop fill fuel depth mx).
  Proof.
    intros Hm. induction fuel as [|f IH]; intros depth mx; cbn [depth_loop]; (apply trip_if; [|apply trip_ret]); (eapply trip_bind; [apply f_done|]); intros dn;
      (apply trip_if; [apply trip_ret|]); (eapply trip_bind; [apply f_add_children, Hm|]); intros ?; [apply trip_fuel|apply IH].
  Qed.
  Lemma f_with_new n m d : nok n -> keeps m -> dbok d -> match with_new n m d with (Ok c, d') => good c /\ dbok d' | (_, d') => dbok d' end.
  Proof.
    intros Hn Hm Hd. unfold with_new. specialize (Hm (n, d) (conj Hn Hd)). destruct (m (n, d)) as [[[]| | |] [n' d2]]; destruct Hm as (H1 & H2); try exact H2.
    split; [split; [now apply nok_fmt|apply tgood_size, H1]|exact H2].
  Qed.
  Lemma f_trickle_rec fuel : forall mx, keeps (fillTrickleRec fuel mx).
  Proof.
    induction fuel as [|f IH]; intros mx; cbn [fillTrickleRec]; [apply trip_fuel|]. eapply trip_bind; [apply f_layer|]. intros ?.
    eapply trip_bind; [|intros ?; apply f_commit]. apply f_depth. intros z d Hd. apply f_with_new; [apply new_nok; now left|apply IH|exact Hd].
  Qed.
  Lemma f_subtree fuel z : makes (new_subtree fuel z).
  Proof. intros d Hd. unfold new_subtree. apply f_with_new; [apply new_nok; now left|apply f_trickle_rec|exact Hd]. Qed.
  Lemma f_get_db : keeps get_db. Proof. intros s Hs. exact Hs. Qed.
  Lemma f_get_fsn : keeps get_fsn. Proof. intros s Hs. exact Hs. Qed.

  (** ** Imports *)

  Lemma f_node_rec depth : keeps (fillNodeRec depth).
  Proof.
    induction depth as [|k IH]; [intros s Hs; exact Hs|]. intros s Hs. cbn [fillNodeRec].
    refine (trip_bind _ _ ok (fun _ => ok) (fun _ => ok) ok _ _ s Hs); [|intros u; apply f_commit].
    apply f_fill. destruct k as [|k']; [apply f_leaf; now left|]. intros d Hd. apply f_with_new; [apply new_nok; now left|exact IH|exact Hd].
  Qed.
  Lemma f_layout fuel : forall depth root fs, good (root, fs) -> trip dbok (layout_loop fuel depth root fs) (fun x d => fmt (fst x) /\ dbok d) dbok.
  Proof.
    induction fuel as [|f IH]; intros depth root fs Hr; cbn [layout_loop].
    - eapply trip_bind; [apply done_ok|]. intros dn. apply trip_if; [intros s H; split; [apply Hr|exact H]|apply trip_fuel].
    - eapply trip_bind; [apply done_ok|]. intros dn. apply trip_if; [intros s H; split; [apply Hr|exact H]|].
      apply trip_bind with (Q := fun (c : xnode * Z) d => good c /\ dbok d).
      + intros d Hd. apply f_with_new; [apply new_nok; now left| |exact Hd].
        eapply trip_bind; [eapply trip_weaken; [apply (f_AddChild root fs)| |intros a0' s0 H; exact H]; intros s H; split; [exact H|exact Hr]|]. intros ?. apply f_node_rec.
      + intros [x z] s [H1 H2]. exact (IH _ _ _ H1 s H2).
  Qed.
  Lemma f_end x : fmt (fst x) -> trip dbok (bind (Add x) (fun _ => ret (seal (fst x)))) (fun n d => fmt n /\ dbok d) dbok.
  Proof. intros Hx. eapply trip_bind; [apply (add_ok x Hx)|]. intros u d H. split; [now apply fmt_seal|exact H]. Qed.
  Lemma f_balanced fuel : trip dbok (Balanced.Layout fuel) (fun n d => fmt n /\ dbok d) dbok.
  Proof.
    unfold Balanced.Layout. eapply trip_bind; [apply done_ok|]. intros dn. apply trip_if.
    - intros d Hd. rewrite bind_at. destruct (NewLeafNode _ _ _) as [n| | |] eqn:En; try exact Hd. exact (f_end (n, None) (leaf_node_fmt None TFile d n (or_introl eq_refl) (or_introl HL) En) d Hd).
    - eapply trip_bind; [apply f_leaf; now left|]. intros [x z].
      apply trip_bind with (Q := fun c d => fmt (fst c) /\ dbok d); [intros d (H1 & H2); exact (f_layout fuel _ _ _ H1 d H2)|].
      intros root d (H1 & H2). exact (f_end root H1 d H2).
  Qed.
  Lemma f_trickle fuel : trip dbok (Trickle.Layout fuel) (fun n d => fmt n /\ dbok d) dbok.
  Proof.
    unfold Trickle.Layout. eapply trip_bind; [apply f_subtree|]. intros [x z] d ((H1 & _) & H2). exact (f_end x H1 d H2).
  Qed.

  (** ** Append *)

  Lemma open_nok p d ls n : fmt (NProto p d ls) -> NewFSNFromDag p d ls = Ok n -> nok n.
  Proof. unfold NewFSNFromDag. destruct (FSNodeFromBytes d) as [f| | |] eqn:E; try discriminate. intros H [= <-]. apply fmt_node in H. destruct (unmarshal_good _ _ E) as [Hg [t Ht]]. split; [|apply H].
    split; [split; [exact Hg|cbn [f_file]; congruence]|]. split; [exact (proj1 H _ E)|apply H].
  Qed.
  Lemma f_last_child fuel rec depth rep : (forall z, keeps (rec z)) -> keeps (appendFillLastChild fuel rec depth rep).
  Proof.
    intros Hr s Hs. unfold appendFillLastChild. rewrite bind_at. cbn [get_fsn]. rewrite bind_at. cbn [get_db].
    destruct (_ <=? _); [exact Hs|]. cbv zeta. rewrite bind_at. unfold lift at 1.
    destruct (GetChild _ _ _) as [c| | |] eqn:Ec; try exact Hs.
    assert (Hc : nok c).
    { unfold GetChild in Ec. destruct (_ <? 0); [discriminate|]. destruct (nth_error _ _) as [l|] eqn:El; [|discriminate].
      pose proof (get_cases (db_w (snd s)) (lto l)) as G. destruct (dserv_get (db_w (snd s)) (lto l)) as [k| | |]; try discriminate. subst k. cbn [rbind] in Ec.
      destruct (lto l) as [|q d ls] eqn:En; [discriminate|]. eapply open_nok; [|exact Ec]. rewrite <- En. apply Hs. eapply nth_error_In, El. }
    rewrite bind_at. unfold on_fsn at 1. pose proof (Hr (depth - 1) (c, snd s) (conj Hc (proj2 Hs))) as Hc'.
    destruct (rec (depth - 1) (c, snd s)) as [[[]| | |] [c' d']]; destruct Hc' as (Hc' & Hd'); cbn [fst snd] in *; try (exact (conj (proj1 Hs) Hd')).
    rewrite bind_at. unfold lift at 1. destruct (RemoveChild _ _) as [n1| | |] eqn:En; try (exact (conj (proj1 Hs) Hd')).
    assert (Hn1 : nok n1).
    { unfold RemoveChild in En. destruct (RemoveBlockSize _ _) as [f1| | |] eqn:Ef; try discriminate. cbn [rbind] in En. destruct (_ <=? _); [discriminate|]. injection En as <-.
      destruct Hs as (((H1 & H1' & H1'') & H2) & _). split; [split; [eapply tgood_remove; eassumption|split; [|exact H1'']]|].
      { cbn [f_file]. unfold RemoveBlockSize in Ef. destruct (_ || _); [discriminate|]. destruct (nth_error _ _); [|discriminate]. injection Ef as <-. exact H1'. }
      cbn [f_links]. intros l Hl. apply H2. apply in_app_iff in Hl. destruct Hl as [Hl|Hl].
      - rewrite <- (firstn_skipn (Z.to_nat (fNumChildren (fst s) - 1)) (f_links (fst s))). apply in_or_app. now left.
      - rewrite <- (firstn_skipn (Z.to_nat (fNumChildren (fst s) - 1 + 1)) (f_links (fst s))). apply in_or_app. now right. }
    rewrite bind_at. cbn [set_fsn]. rewrite bind_at. unfold lift at 1. pose proof (commit_nok c') as C. destruct (Commit c') as [c2| | |]; try (exact (conj Hn1 Hd')). cbn [fst snd].
    refine (trip_bind _ _ (fun s => ok s /\ good ((GetDagNode c2, @None Z), fFileSize c')) (fun _ => ok) (fun _ => ok) ok (f_AddChild (GetDagNode c2, None) (fFileSize c')) _ (n1, d') _).
    - intros u. apply trip_if; [apply trip_ret|]. apply f_add_children. apply f_subtree.
    - split; [exact (conj Hn1 Hd')|]. split; [apply nok_fmt; now apply C|apply tgood_size, Hc'].
  Qed.
  Lemma f_append_rec fuel rfuel : forall mx, keeps (appendRec fuel rfuel mx).
  Proof.
    induction rfuel as [|rf IH]; intros mx; cbn [appendRec]; (apply trip_if; [apply trip_ret|]);
      (eapply trip_bind; [apply f_done|]); intros [|]; try apply trip_ret; [apply trip_fuel|].
    eapply trip_bind; [apply f_get_fsn|]. intros n. eapply trip_bind; [apply f_get_db|]. intros bb.
    destruct (trickleDepthInfo n (db_maxlinks bb)) as [d0 rep].
    eapply trip_bind with (Q := fun _ => ok); [apply trip_if; [eapply trip_bind; [apply f_layer|intros []; apply trip_ret]|apply trip_ret]|].
    intros depth. apply trip_if; [apply trip_ret|]. eapply trip_bind; [apply f_last_child, IH|]. intros [].
    eapply trip_bind; [apply f_done|]. intros d2. apply trip_if; [|apply trip_ret].
    apply f_depth, f_subtree.
  Qed.
  Lemma f_append_body fuel rfuel : keeps (append_body fuel rfuel).
  Proof.
    unfold append_body. eapply trip_bind; [apply f_get_fsn|]. intros n. eapply trip_bind; [apply f_get_db|]. intros bb.
    destruct (trickleDepthInfo n (db_maxlinks bb)) as [d0 rep]. eapply trip_bind with (Q := fun c => ok).
    - apply trip_if; [|apply trip_ret]. eapply trip_bind; [apply f_layer|]. intros [].
      eapply trip_bind; [apply f_done|]. intros d2. apply trip_ret.
    - intros [depth|]; [|apply trip_ret].
      eapply trip_bind; [apply f_last_child; intros; apply f_append_rec|]. intros [].
      eapply trip_bind; [apply f_done|]. intros d2.
      eapply trip_bind; [apply f_depth, f_subtree|]. intros []. apply f_commit.
  Qed.
  Lemma f_append fuel rfuel dbp fi spl base w : Forall (fun e => match e with EvData c => fits L c | EvErr _ => True end) spl -> fmt base -> wok w ->
    let '(x, base', w') := trickle_append fuel rfuel dbp fi spl base w in fmt base' /\ wok w' /\ (forall root, x = Ok root -> fmt root).
  Proof.
    intros H1 Hb Hw. unfold trickle_append, New. destruct (_ && negb fi); [split; [exact Hb|split; [exact Hw|discriminate]]|].
    set (d := mkDb _ _ _ _ _ _ _ _ _). assert (Hd : dbok d) by (split; [exact H1|split; [exact Logic.I|exact Hw]]). clearbody d. unfold Append.
    destruct base as [p q|p q ls]; [split; [exact Hb|split; [apply Hd|discriminate]]|].
    destruct (NewFSNFromDag p q ls) as [n| | |] eqn:En; try (split; [exact Hb|split; [apply Hd|discriminate]]).
    pose proof (f_append_body fuel rfuel (n, d) (conj (open_nok _ _ _ _ Hb En) Hd)) as H.
    destruct (append_body fuel rfuel (n, d)) as [[[]| | |] [n' d']]; destruct H as (F & G); apply nok_fmt in F; cbn [fst snd] in *;
      (split; [exact F|split; [apply G|]]); try discriminate. intros root [= <-]. exact F.
  Qed.

  (** ** Overwriting *)

  Lemma f_add_leaf n buf w : fmt n -> wok w -> let '(x, _, w') := add_leaf n buf w in wok w' /\ (forall k, x = Ok k -> fmt k).
  Proof.
    intros Hn Hw. unfold add_leaf. pose proof (add_wok n None w Hn Hw) as H. destruct (dserv_add n None w) as [[[]| | |] w']; (split; [exact H|]); try discriminate.
    intros k [= <-]. now apply fmt_seal.
  Qed.
  Lemma f_modify_leaf n off buf w : node_links n = [] -> fmt n -> wok w -> let '(x, _, w') := modify_leaf n off buf w in wok w' /\ (forall k, x = Ok k -> fmt k).
  Proof.
    intros Hl Hn Hw. unfold modify_leaf. destruct n as [p d|p d ls].
    - destruct (_ <? _); [split; [exact Hw|discriminate]|]. destruct (buf_read _ _) as [new buf'] eqn:Eb.
      assert (El : zlen (ztake off d ++ new) = zlen d).
      { pose proof (buf_read_len (zdrop off d) buf) as X. rewrite Eb in X. cbn [fst] in X. rewrite zlen_app, X. apply cut_len. }
      apply f_add_leaf; [|exact Hw]. apply fmt_raw. apply fmt_raw in Hn. now rewrite El.
    - destruct (FSNodeFromBytes d) as [f| | |] eqn:Ef; try (split; [exact Hw|discriminate]). destruct (_ <? _); [split; [exact Hw|discriminate]|]. destruct (buf_read _ _) as [new buf'] eqn:Eb.
      assert (El : zlen (ztake off (getData f) ++ new) = zlen (getData f)).
      { pose proof (buf_read_len (zdrop off (getData f)) buf) as X. rewrite Eb in X. cbn [fst] in X. rewrite zlen_app, X. apply cut_len. }
      assert (El' : zlen (obytes (option_map (fun _ => ztake off (getData f) ++ new) (d_data f))) = zlen (getData f)).
      { unfold getData in *. destruct (d_data f); cbn [option_map obytes] in *; [exact El|reflexivity]. }
      destruct (leaf_encode d f (option_map (fun _ => ztake off (getData f) ++ new) (d_data f)) Ef El') as (b' & E1 & E2 & _).
      { destruct (d_data f); cbn; split; intros X; try discriminate X; reflexivity. }
      rewrite E1. apply f_add_leaf; [|exact Hw]. apply fmt_node. apply fmt_node in Hn. split; [|intros l []]. intros fs E. rewrite E2 in E. injection E as <-.
      unfold getData at 1. cbn [set_data d_data]. rewrite El'. exact (proj1 Hn _ Ef).
  Qed.
  Lemma set_link_fmt i k ls : fmt k -> (forall l, In l ls -> fmt (lto l)) -> forall l, In l (set_link i k ls) -> fmt (lto l).
  Proof.
    revert i. induction ls as [|y t IH]; intros [|i] Hk Hl l Hi; cbn [set_link] in Hi; try contradiction.
    - destruct Hi as [<-|Hi]; [exact Hk|apply Hl; now right].
    - destruct Hi as [<-|Hi]; [apply Hl; now left|]. eapply IH; [exact Hk| |exact Hi]. intros z Hz. apply Hl. now right.
  Qed.
  Lemma f_modify_links rec :
    (forall c o bf w, fmt c -> wok w -> let '(x, _, w') := rec c o bf w in wok w' /\ (forall k, x = Ok k -> fmt k)) ->
    forall sizes i cur off ls buf w, (forall l, In l ls -> fmt (lto l)) -> wok w ->
      let '(_, ls', _, w') := modify_links rec sizes i cur off ls buf w in (forall l, In l ls' -> fmt (lto l)) /\ wok w'.
  Proof.
    intros Hr. induction sizes as [|bs t IH]; intros i cur off ls buf w Hl Hw; cbn [modify_links]; [split; assumption|].
    destruct (off <? _); [|now apply IH]. destruct (nth_error ls i) as [l|] eqn:En; [|split; assumption].
    pose proof (get_cases w (lto l)) as G. destruct (dserv_get w (lto l)) as [child| | |]; try (split; assumption). subst child.
    specialize (Hr (lto l) (u64 (off - cur)) buf w (Hl l (nth_error_In _ _ En)) Hw). destruct (rec (lto l) _ buf w) as [[x buf'] w']. destruct Hr as (Hw' & Hk).
    destruct x as [k| | |]; try (split; assumption). pose proof (set_link_fmt i k ls (Hk k eq_refl) Hl) as HS.
    assert (HS' : forall z, In z (lsort (set_link i k ls)) -> fmt (lto z)) by (intros z Hz; apply HS; now apply In_lsort).
    destruct (_ =? 0); [split; assumption|]. now apply IH.
  Qed.
  Lemma f_modifyDag fuel : forall n off buf w, fmt n -> wok w ->
    let '(x, _, w', n') := modifyDag fuel n off buf w in fmt n' /\ wok w' /\ (forall k, x = Ok k -> fmt k).
  Proof.
    induction fuel as [|f IH]; intros n off buf w Hf Hw; cbn [modifyDag]; destruct (node_links n) as [|l0 r0] eqn:En;
      try (pose proof (f_modify_leaf n off buf w En Hf Hw) as H; destruct (modify_leaf n off buf w) as [[? ?] ?]; exact (conj Hf H));
      destruct n as [p d|p d ls]; cbn [node_links] in En; try discriminate; subst ls;
      destruct (FSNodeFromBytes d) as [fs| | |]; try (split; [exact Hf|split; [exact Hw|discriminate]]).
    assert (Hr : forall c o bf ww, fmt c -> wok ww -> let '(x, _, w') := fst (modifyDag f c o bf ww) in wok w' /\ (forall k, x = Ok k -> fmt k)).
    { intros c o bf ww Hc Hww. specialize (IH c o bf ww Hc Hww). destruct (modifyDag f c o bf ww) as [[[? ?] ?] ?]. cbn [fst]. tauto. }
    pose proof (f_modify_links (fun c o bf ww => fst (modifyDag f c o bf ww)) Hr (d_blocksizes fs) 0 0 off (l0 :: r0) buf w (fun l => fmt_links _ l Hf) Hw) as H.
    destruct (modify_links _ _ _ _ _ _ _ _) as [[[x ls'] buf'] w']. destruct H as (H1 & H2).
    assert (F : fmt (NProto p d ls')) by (apply fmt_node; apply fmt_node in Hf; split; [apply Hf|exact H1]).
    destruct x as [[]| | |]; try (split; [exact F|split; [exact H2|discriminate]]). pose proof (fmt_seal _ F) as F'.
    pose proof (add_wok _ None w' F H2) as HA. destruct (dserv_add _ _ w') as [[[]| | |] w2]; (split; [exact F'|split; [exact HA|]]); try discriminate. intros k [= <-]. exact F'.
  Qed.

  (** ** Truncating *)

  Lemma f_trunc_links rec :
    (forall c o w, fmt c -> wok w -> let '(x, w') := rec c o w in wok w' /\ (forall k, x = Ok k -> fmt k)) ->
    forall ls i cur size f w, (forall l, In l ls -> fmt (lto l)) -> wok w ->
      let '(x, w') := trunc_links rec ls i cur size f w in wok w' /\ (forall e k f', x = Ok (Some (e, k), f') -> fmt k).
  Proof.
    intros Hr. induction ls as [|l t IH]; intros i cur size f w Hl Hw; cbn [trunc_links]; [split; [exact Hw|discriminate]|].
    pose proof (get_cases w (lto l)) as G. destruct (dserv_get w (lto l)) as [child| | |]; try (split; [exact Hw|discriminate]). subst child.
    destruct (fileSize (lto l)) as [cs| | |]; try (split; [exact Hw|discriminate]). destruct (_ <? _); [|apply IH; [intros x Hx; apply Hl; now right|exact Hw]].
    specialize (Hr (lto l) (u64 (size - cur)) w (Hl l (or_introl eq_refl)) Hw). destruct (rec (lto l) _ w) as [[nc| | |] w']; destruct Hr as (Hw' & Hk); (split; [exact Hw'|]); try discriminate.
    intros e k f' [= _ <- _]. auto.
  Qed.
  Lemma trunc_links_data rec : forall ls i cur size f w,
    let '(r, _) := trunc_links rec ls i cur size f w in forall x f', r = Ok (x, f') -> getData f' = getData f.
  Proof.
    assert (Ha : forall z f, getData (AddBlockSize z f) = getData f) by (intros z f; now rewrite AddBlockSize_eq).
    induction ls as [|l r IH]; intros i cur size f w; cbn [trunc_links]; [intros x f' [= _ <-]; reflexivity|].
    destruct (dserv_get w (lto l)) as [child| | |]; try discriminate. destruct (fileSize child) as [cs| | |] eqn:Ec; try discriminate. destruct (_ <? _).
    - destruct (rec child _ w) as [[nc| | |] w']; try discriminate. intros x f' [= _ <-]. apply Ha.
    - specialize (IH (S i) (u64 (cur + cs)) size (AddBlockSize cs f) w). destruct (trunc_links _ _ _ _ _ _ _) as [r0 w']. rewrite Ha in IH. exact IH.
  Qed.
  Lemma ztake_le {A} k (l : list A) : zlen (ztake k l) <= zlen l.
  Proof. exact (zlen_firstn_le (Z.to_nat k) l). Qed.
  Lemma f_dagTruncate fuel : forall n size w, fmt n -> wok w -> let '(x, w') := dagTruncate fuel n size w in wok w' /\ (forall k, x = Ok k -> fmt k).
  Proof.
    assert (LF : forall p d size w, fmt (NProto p d []) -> wok w -> let '(x, w') := dagTruncate 0 (NProto p d []) size w in wok w' /\ (forall k, x = Ok k -> fmt k)).
    { intros p d size w Hf Hw. cbn [dagTruncate node_links]. destruct (FSNodeFromBytes d) as [f| | |] eqn:Ef; try (split; [exact Hw|discriminate]). destruct (_ <? _); [split; [exact Hw|discriminate]|].
      destruct (WrapData _) as [d'| | |] eqn:Ew; (split; [exact Hw|]); try discriminate. intros k [= <-]. apply fmt_node. apply fmt_node in Hf. split; [|intros l []].
      destruct (unmarshal_good _ _ Ef) as [((_ & Hz & _) & _) _]. pose proof (proj1 Hf _ Ef) as Hl. unfold getData in Hl.
      edestruct (WrapData_decode (option_map (ztake size) (d_data f))) as (b2 & E2 & Hd).
      { destruct (d_data f) as [v|]; cbn [option_map obytes]; [|reflexivity]. pose proof (ztake_le size v). lia. }
      rewrite Ew in E2. injection E2 as <-. intros fs E. unfold FSNodeFromBytes in E. rewrite Hd in E. injection E as <-. unfold getData. cbn [d_data].
      destruct (d_data f) as [v|]; cbn [option_map obytes] in *; [|exact Hl]. pose proof (ztake_le size v). lia. }
    induction fuel as [|fu IH]; intros n size w Hf Hw; cbn [dagTruncate]; destruct n as [p d|p d [|l0 ls]]; cbn [node_links] in *.
    1,4: destruct (_ <? _); (split; [exact Hw|]); try discriminate; intros k [= <-]; apply fmt_raw; apply fmt_raw in Hf; pose proof (ztake_le size d); lia.
    1,3: exact (LF p d size w Hf Hw).
    - destruct (FSNodeFromBytes d); (split; [exact Hw|discriminate]).
    - destruct (FSNodeFromBytes d) as [f| | |] eqn:Ef; try (split; [exact Hw|discriminate]). destruct (unmarshal_good _ _ Ef) as [Hg [t Ht]].
      assert (HF : tgood f) by (split; [exact Hg|congruence]).
      pose proof (trunc_links_attrs (dagTruncate fu) (l0 :: ls) 0 0 size (RemoveAllBlockSizes f) w (RemoveAll_tgood f HF)) as HT.
      pose proof (trunc_links_data (dagTruncate fu) (l0 :: ls) 0 0 size (RemoveAllBlockSizes f) w) as HD.
      pose proof (f_trunc_links (dagTruncate fu) IH (l0 :: ls) 0 0 size (RemoveAllBlockSizes f) w (fun l => fmt_links _ l Hf) Hw) as H.
      destruct (trunc_links _ _ _ _ _ _ _) as [[[[[e modified]|] f']| | |] w']; destruct H as (Hw' & Hk); try (split; [exact Hw'|discriminate]). specialize (Hk _ _ _ eq_refl). destruct (HT _ _ eq_refl) as (HT' & _). specialize (HD _ _ eq_refl).
      pose proof (add_wok modified None w' Hk Hw') as HA. destruct (dserv_add modified None w') as [[[]| | |] w2]; try (split; [exact HA|discriminate]).
      destruct (GetBytes f') as [d'| | |] eqn:Eg; (split; [exact HA|]); try discriminate. intros k [= <-].
      apply (fmt_seal (NProto p d' (firstn e (l0 :: ls) ++ [make_link [] modified]))), fmt_node. apply fmt_node in Hf.
      split; [eapply encoded_ok; [exact HT'| |exact Eg]; rewrite HD; exact (proj1 Hf _ Ef)|].
      intros l Hl. apply in_app_iff in Hl. destruct Hl as [Hl|[<-|[]]]; [|now apply fmt_seal].
      apply Hf. rewrite <- (firstn_skipn e (l0 :: ls)). apply in_or_app. now left.
  Qed.

  (** ** The modifier *)

  Definition mok (s : mst) : Prop :=
    match m_node (fst s) with Some n => fmt n | None => True end /\ wok (snd s).
  Notation safe m := (trip mok m (fun _ => mok) mok).
  Lemma fs_same {X} (m : M mst X) :
    (forall s, m_node (fst (snd (m s))) = m_node (fst s) /\ w_added (snd (snd (m s))) = w_added (snd s)) -> safe m.
  Proof.
    intros Hn s H. destruct (Hn s) as (E1 & E2). assert (H' : mok (snd (m s))) by (unfold mok, wok in *; now rewrite E1, E2).
    destruct (m s) as [[a| | |] s']; exact H'.
  Qed.
  Lemma fs_lift {X} (x : res X) : safe (lift x).
  Proof. intros s H. unfold lift. destruct x; exact H. Qed.
  Lemma fs_throw {X} e : safe (throw (A := X) e).
  Proof. intros s H. exact H. Qed.
  Lemma fs_ret {X} (a : X) : safe (ret a).
  Proof. intros s H. exact H. Qed.
  Lemma fs_bind {X Y} (m : M mst X) (k : X -> M mst Y) : safe m -> (forall a, safe (k a)) -> safe (bind m k).
  Proof. intros Hm Hk. eapply trip_bind; [exact Hm|exact Hk]. Qed.
  Lemma fs_get_mod : safe get_mod.
  Proof. now apply fs_same. Qed.
  Lemma fs_cur_node : safe cur_node.
  Proof. apply fs_same; intros s; unfold cur_node; destruct (m_node (fst s)) eqn:E; auto. Qed.
  Lemma fs_mod_add n : trip (fun s => fmt n /\ mok s) (mod_add n) (fun _ s => fmt n /\ mok s) mok.
  Proof.
    intros [m w] (Hn & H1 & H2). unfold mod_add. cbn [fst snd] in *. pose proof (add_wok n None w Hn H2) as H.
    destruct (dserv_add n None w) as [[[]| | |] w']; repeat split; auto.
  Qed.
  Lemma events_fit chunks : Forall (fits L) chunks -> Forall (fun e => match e with EvData c => fits L c | EvErr _ => True end) (map EvData chunks).
  Proof. intros H. apply Forall_map. exact H. Qed.
  Lemma fs_append_cur chunks : Forall (fits L) chunks -> trip mok (append_cur chunks) (fun nn s => fmt nn /\ mok s) mok.
  Proof.
    intros HC [m w] HJ. unfold append_cur. cbn [fst snd]. pose proof HJ as HJ'. destruct HJ as (H1 & H2). cbn [fst snd] in *.
    destruct (m_node m) as [n|] eqn:En; [|exact HJ']. unfold appendData.
    match goal with |- context [trickle_append ?a ?q ?c ?d ?e ?f ?g] => pose proof (f_append a q c d e f g (events_fit _ HC) H1 H2) as H;
      destruct (trickle_append a q c d e f g) as [[x n'] w'] end. destruct H as (F & W & H).
    assert (HN : mok (m_change_node n n' m, w')).
    { unfold mok. destruct n, m; cbn in *; try rewrite En; auto. }
    destruct x as [root| | |]; try exact HN. split; [now apply H|exact HN].
  Qed.
  Hypothesis HS : 4096 <= L.
  Lemma zeros_fit size : Forall (fits L) (zero_chunks size).
  Proof.
    unfold zero_chunks. destruct (size <=? 0) eqn:E; [constructor|].
    pose proof (Z.mod_pos_bound size 4096 ltac:(lia)) as Hm. apply Forall_app. split.
    - apply Forall_forall. intros x Hx. apply repeat_spec in Hx. subst x. left. unfold zeros. rewrite zlen_repeat. lia.
    - destruct (_ =? 0); constructor; [|constructor]. left. unfold zeros. rewrite zlen_repeat. lia.
  Qed.
  Lemma fs_expand size : safe (expandSparse size).
  Proof.
    unfold expandSparse. eapply trip_bind; [apply fs_append_cur, zeros_fit|]. intros nn. eapply trip_weaken; [apply fs_mod_add|auto|]. intros a s (_ & H). exact H.
  Qed.
  Lemma fs_truncate_cur size : trip mok (truncate_cur size) (fun nn s => fmt nn /\ mok s) mok.
  Proof.
    intros [m w] HJ. pose proof HJ as HJ'. unfold truncate_cur. destruct HJ as (H1 & H2). cbn [fst snd] in *. destruct (m_node m) as [n|] eqn:En; [|exact HJ'].
    pose proof (f_dagTruncate (weight n) n size w H1 H2) as H. destruct (dagTruncate _ _ _ _) as [[nn| | |] w']; destruct H as (W & H);
      try (unfold mok; cbn [fst snd]; rewrite En; auto).
    specialize (H nn eq_refl). split; [exact H|]. unfold mok. destruct n, m; cbn in *; try rewrite En; auto.
  Qed.
  Lemma fs_modify_cur : trip mok modify_cur (fun k s => fmt k /\ mok s) mok.
  Proof.
    intros [m w] HJ. pose proof HJ as HJ'. unfold modify_cur. destruct HJ as (H1 & H2). cbn [fst snd] in *.
    destruct (m_node m) as [n|] eqn:En, (m_buf m) as [buf|] eqn:Eb; try exact HJ'.
    pose proof (f_modifyDag (weight n) n (m_start m) buf w H1 H2) as H.
    destruct (modifyDag _ _ _ _ _) as [[[x buf'] w'] n']. destruct H as (F & W & H).
    assert (HN : mok (m_set_buf (Some buf') (m_set_node (Some n') m), w')) by (unfold mok; cbn; auto).
    destruct x as [k| | |]; try exact HN. split; [now apply H|exact HN].
  Qed.
  Lemma fs_get_cur k : trip (fun s => fmt k /\ mok s) (get_cur k) (fun _ => mok) mok.
  Proof.
    intros [m w] (Hk & HJ). unfold get_cur. cbn [fst snd]. pose proof (get_cases w k) as G. destruct (dserv_get w k) as [n| | |]; try exact HJ; [subst n|];
    destruct HJ as (H1 & H2); unfold mok; cbn; auto.
  Qed.
  Hint Resolve fs_ret fs_lift fs_throw fs_get_mod fs_cur_node fs_expand : fmtdb.
  Ltac fmt_seq :=
    repeat (intros; first [ solve [auto with fmtdb nocore] | apply fs_bind
      | match goal with |- trip _ (match ?x with _ => _ end) _ _ => destruct x end
      | apply fs_same; intros; cbn; repeat (match goal with |- context [match ?x with _ => _ end] => destruct x end; cbn; try (repeat split; reflexivity)); repeat split; reflexivity ]).
  Variable split : bytes -> list bytes.
  Hypothesis Hsplit : forall buf, Forall (fits L) (split buf).
  Variable wbsize : Z.
  Lemma fs_overwrite (k : M mst unit) : safe k -> safe (bind modify_cur (fun c => bind (get_cur c) (fun _ => k))).
  Proof. intros Hk. eapply trip_bind; [apply fs_modify_cur|]. intros c. eapply trip_bind; [apply fs_get_cur|]. intros u. exact Hk. Qed.
  Lemma fs_append_rest buf : safe (bind (append_buf split buf) (fun nn => mod_add nn)).
  Proof.
    eapply trip_bind with (Q := fun nn s => fmt nn /\ mok s); [|intros nn; eapply trip_weaken; [apply fs_mod_add|auto|intros a s (_ & H); exact H]].
    intros s HJ. pose proof (fs_append_cur (split buf) (Hsplit buf) s HJ) as H. unfold append_buf.
    destruct (append_cur (split buf) s) as [[n|e| |] [m w]]; try exact H.
    - destruct H as (Hn & H1 & H2). split; [exact Hn|]. unfold mok. cbn. auto.
    - destruct H as (H1 & H2). unfold mok. cbn. auto.
  Qed.
  Hint Resolve fs_append_rest : fmtdb.
  Lemma fs_Sync : safe (Sync split).
  Proof.
    unfold Sync. apply fs_bind; [apply fs_get_mod|]. intros m0. destruct (m_buf m0) as [buf0|]; [|apply fs_ret].
    apply fs_bind; [fmt_seq|]. intros []. apply fs_bind; [apply fs_cur_node|]. intros n0. apply fs_bind; [apply fs_lift|]. intros fs.
    apply fs_bind; [fmt_seq|]. intros []. apply fs_overwrite. fmt_seq.
  Qed.
  Hint Resolve fs_Sync : fmtdb.
  Lemma fs_Size : safe mSize.
  Proof. unfold mSize. fmt_seq. Qed.
  Hint Resolve fs_Size : fmtdb.
  Lemma fs_Write x : safe (mWrite split wbsize x).
  Proof. unfold mWrite. fmt_seq. Qed.
  Hint Resolve fs_Write : fmtdb.
  Lemma fs_WriteAt x off : safe (WriteAt split wbsize x off).
  Proof. unfold WriteAt. fmt_seq. Qed.
  Lemma fs_readPrep : safe (readPrep split).
  Proof. unfold readPrep. fmt_seq. apply fs_same; intros s; destruct (m_node (fst s)) eqn:E; auto. Qed.
  Hint Resolve fs_readPrep : fmtdb.
  Lemma fs_Read k : safe (mRead split k).
  Proof. unfold mRead. fmt_seq. Qed.
  Lemma fs_read_seek off wh : safe (read_seek off wh).
  Proof.
    apply fs_same; intros s; unfold read_seek; destruct (m_read (fst s)) as [r'|]; try (repeat split; reflexivity);
    destruct (Seek (snd s) off wh r') as [[i e] r2]; repeat split; reflexivity.
  Qed.
  Hint Resolve fs_read_seek : fmtdb.
  Lemma fs_Seek off wh : safe (mSeek split off wh).
  Proof. unfold mSeek. fmt_seq. Qed.
  Lemma fs_cut size : safe (bind (truncate_cur size) (fun nn => bind (mod_add nn) (fun _ => upd_mod (m_set_node (Some nn))))).
  Proof.
    eapply trip_bind; [apply fs_truncate_cur|]. intros nn. eapply trip_bind; [apply fs_mod_add|]. intros [] s (Hl & _ & H). split; [exact Hl|exact H].
  Qed.
  Hint Resolve fs_cut : fmtdb.
  Lemma fs_Truncate size : safe (mTruncate split size).
  Proof. unfold mTruncate. fmt_seq. Qed.
  Lemma fs_GetNode : trip mok (mGetNode split) (fun n s => fmt n /\ mok s) mok.
  Proof.
    unfold mGetNode. eapply trip_bind; [apply fs_Sync|intros u]. intros s HJ. pose proof HJ as HJ'. destruct HJ as (H1 & _). cbn. unfold cur_node.
    destruct (m_node (fst s)) as [n|] eqn:E; [|exact HJ']. split; assumption.
  Qed.
  Lemma fs_after op s : mok s -> mok (mod_after split wbsize op s).
  Proof.
    intros HJ.
    assert (K : forall X (m : M mst X), safe m -> mok (snd (m s))) by (intros X m H; specialize (H s HJ); destruct (m s) as [[?| | |] ?]; exact H).
    destruct op; cbn [mod_after]; apply K;
      first [apply fs_Write|apply fs_WriteAt|apply fs_Seek|apply fs_Truncate|apply fs_Read|apply fs_Size|apply fs_Sync|idtac].
    eapply trip_weaken; [apply fs_GetNode|auto|]. intros a s0 H. apply H.
  Qed.
  Lemma fs_history ops : forall s, mok s -> mok (mod_history split wbsize ops s).
  Proof. unfold mod_history. induction ops as [|op ops IH]; intros s HJ; cbn [fold_left]; [exact HJ|]. apply IH, fs_after, HJ. Qed.
End Small.

Lemma import_small L layout dbp fi spl w : 0 <= L -> Forall (fun e => match e with EvData c => fits L c | EvErr _ => True end) spl ->
  trip (dbok L (w_added w)) layout (fun n d => small L n /\ dbok L (w_added w) d) (dbok L (w_added w)) ->
  let '(x, w') := build layout dbp fi spl w in adds_small L w w' /\ (forall n, x = Ok n -> small L n).
Proof.
  intros HL HC HT. unfold build, New. assert (W0 : wok L (w_added w) w) by (intros x Hx; now left). destruct (_ && negb fi); [split; [exact W0|discriminate]|].
  set (d := mkDb _ _ _ _ _ _ _ _ _). assert (Hd : dbok L (w_added w) d) by (split; [exact HC|split; [exact Logic.I|exact W0]]).
  specialize (HT d Hd). clearbody d. destruct (layout d) as [[n| | |] d']; [destruct HT as (H1 & H)|pose proof HT as H..]; (split; [apply H|]); try discriminate.
  intros m [= <-]. exact H1.
Qed.
Lemma balanced_small L fuel dbp fi spl w x w' : 0 <= L -> (forall c, In (EvData c) spl -> fits L c) ->
  balanced_import fuel dbp fi spl w = (x, w') -> adds_small L w w' /\ (forall n, x = Ok n -> small L n).
Proof.
  intros HL HC E. pose proof (import_small L (Balanced.Layout fuel) dbp fi spl w HL) as H. unfold balanced_import in E. rewrite E in H. apply H; [|now apply f_balanced].
  apply Forall_forall. intros [c|e] Hc; [now apply HC|exact Logic.I].
Qed.
Lemma trickle_small L fuel dbp fi spl w x w' : 0 <= L -> (forall c, In (EvData c) spl -> fits L c) ->
  trickle_import fuel dbp fi spl w = (x, w') -> adds_small L w w' /\ (forall n, x = Ok n -> small L n).
Proof.
  intros HL HC E. pose proof (import_small L (Trickle.Layout fuel) dbp fi spl w HL) as H. unfold trickle_import in E. rewrite E in H. apply H; [|now apply f_trickle].
  apply Forall_forall. intros [c|e] Hc; [now apply HC|exact Logic.I].
Qed.
Lemma append_small L fuel rfuel dbp fi spl base w x base' w' : 0 <= L -> (forall c, In (EvData c) spl -> fits L c) -> small L base ->
  trickle_append fuel rfuel dbp fi spl base w = (x, base', w') -> adds_small L w w' /\ (forall n, x = Ok n -> small L n).
Proof.
  intros HL HC Hb E. pose proof (f_append L (w_added w) HL fuel rfuel dbp fi spl base w) as H. rewrite E in H.
  destruct H as (_ & H); [|exact Hb|intros y Hy; now left|exact H]. apply Forall_forall. intros [c|e] Hc; [now apply HC|exact Logic.I].
Qed.
Lemma history_small L split wbsize n w ops : 4096 <= L -> (forall buf c, In c (split buf) -> fits L c) -> small L n ->
  adds_small L w (snd (mod_history split wbsize ops (NewDagModifier n, w))) /\
  forall m s', mGetNode split (mod_history split wbsize ops (NewDagModifier n, w)) = (Ok m, s') -> small L m /\ adds_small L w (snd s').
Proof.
  intros HS HC Hn. assert (HL : 0 <= L) by lia. assert (HC' : forall buf, Forall (fits L) (split buf)) by (intros buf; apply Forall_forall, HC).
  assert (H0 : mok L (w_added w) (mod_history split wbsize ops (NewDagModifier n, w))).
  { apply fs_history; auto. split; [exact Hn|]. intros x Hx. now left. }
  split; [apply H0|]. intros m s' E. pose proof (fs_GetNode L (w_added w) HL HS split HC' _ H0) as G. rewrite E in G. split; apply G.
Qed.
Lemma fits_any c : fits 1048576 c.
Proof. unfold fits. lia. Qed.
Lemma history_limit split wbsize n w ops : small 1048576 n ->
  adds_small 1048576 w (snd (mod_history split wbsize ops (NewDagModifier n, w))) /\
  forall m s', mGetNode split (mod_history split wbsize ops (NewDagModifier n, w)) = (Ok m, s') -> small 1048576 m /\ adds_small 1048576 w (snd s').
Proof. intros H. apply history_small; [lia|intros; apply fits_any|exact H]. Qed.
Lemma import_limit fuel dbp fi spl w :
  (forall x w', balanced_import fuel dbp fi spl w = (x, w') -> adds_small 1048576 w w' /\ (forall n, x = Ok n -> small 1048576 n)) /\
  (forall x w', trickle_import fuel dbp fi spl w = (x, w') -> adds_small 1048576 w w' /\ (forall n, x = Ok n -> small 1048576 n)) /\
  (forall rfuel base x base' w', small 1048576 base ->
     trickle_append fuel rfuel dbp fi spl base w = (x, base', w') -> adds_small 1048576 w w' /\ (forall n, x = Ok n -> small 1048576 n)).
Proof.
  split; [|split]; intros.
  - eapply balanced_small; [lia|intros; apply fits_any|eassumption].
  - eapply trickle_small; [lia|intros; apply fits_any|eassumption].
  - eapply append_small; [lia|intros; apply fits_any|eassumption|eassumption].
Qed.

(** ** Witnesses *)

Definition small_b (L : Z) (m : node) : bool :=
  match m with NRaw _ d => zlen d <=? L | NProto _ b _ => match FSNodeFromBytes b with Ok fs => zlen (getData fs) <=? L | _ => true end end.
Lemma small_dec L n : all_blocks (small_b L) n = true <-> small L n.
Proof.
  rewrite all_blocks_iff. unfold small. split.
  - intros H m d Hm Hd. specialize (H m Hm). destruct Hd as [p d|p b ls fs E]; cbn [small_b] in H; [lia|]. rewrite E in H. lia.
  - intros H m Hm. destruct m as [p d|p b ls]; cbn [small_b]; [apply Z.leb_le, (H _ d Hm); constructor|].
    destruct (FSNodeFromBytes b) as [fs| | |] eqn:E; try reflexivity. apply Z.leb_le, (H _ (getData fs) Hm). now constructor.
Qed.
(** A file of blocks of two bytes, and a chunker of pieces of two bytes. *)
Fixpoint pairs_of (fuel : nat) (b : bytes) : list bytes :=
  match fuel, b with S f, x :: y :: t => [x; y] :: pairs_of f t | S _, [x] => [[x]] | _, _ => [] end.
Definition by_two (b : bytes) : list bytes := pairs_of (length b) b.
Lemma by_two_fits b c : In c (by_two b) -> fits 2 c.
Proof.
  unfold by_two. generalize (length b) as fuel. intros fuel. revert b. induction fuel as [|f IH]; intros [|x [|y t]] H; cbn [pairs_of] in H; try contradiction.
  - destruct H as [<-|[]]. left. discriminate.
  - destruct H as [<-|H]; [left; discriminate|eauto].
Qed.
Definition two_edits : list mop := [MWriteAt [x7a; x7a; x7a] 1; MSeek 0 2; MWrite [x41; x42; x43]; MSync; MTruncate 3; MGetNode].
Definition holed : list mop := [MTruncate 20].
Definition after_two (raw : bool) (ops : list mop) : mst := mod_history by_two 100 ops (NewDagModifier (made_node raw (Some v1pb)), snd (made raw (Some v1pb))).
Lemma hole_refuted : exists L split n w ops k s', 0 <= L /\ (forall buf c, In c (split buf) -> fits L c) /\ small L n /\
  mGetNode split (mod_history split 100 ops (NewDagModifier n, w)) = (Ok k, s') /\ ~ small L k.
Proof.
  exists 2, by_two, (made_node true (Some v1pb)), (snd (made true (Some v1pb))), holed.
  exists (ok_node (fst (mGetNode by_two (after_two true holed)))), (snd (mGetNode by_two (after_two true holed))).
  split; [lia|]. split; [exact by_two_fits|]. split; [apply small_dec; vm_compute; reflexivity|]. split; [vm_compute; reflexivity|].
  rewrite <- small_dec. vm_compute. discriminate.
Qed.

(** ** Blocks above the limit *)

Lemma over_leaf c d t : leaf_ok t -> zlen c = 1048576 -> db_raw d = false -> exists p b, NewLeafNode (Some c) t d = Ok (NProto p b []) /\ 1048576 < block_len (NProto p b []).
Proof.
  intros Ht Hc Hr. unfold NewLeafNode, BlockSizeLimit. cbn [obytes]. rewrite Hc, Hr. change (1048576 <? 1048576) with false. cbv iota.
  unfold Commit. cbn [SetFileData NewFSNodeOverDag f_file]. destruct (SetData_New t (Some c)) as (E1 & _ & _ & _ & _ & _ & _ & E8). unfold GetBytes, marshal_data. rewrite E1, E8. cbn [rbind].
  eexists _, _. split; [unfold GetDagNode; cbn [f_prefix f_bytes f_links]; reflexivity|]. cbn [block_len map sumZ fold_right enc_optbytes].
  match goal with |- context [zlen ?b =? 0] => set (bb := b) end.
  assert (H : 1048576 < zlen bb).
  { unfold bb. rewrite !zlen_app, Hc. pose proof (zlen_nonneg (varint (u64 t))). pose proof (zlen_nonneg (varint 18)). pose proof (zlen_nonneg (varint 1048576)).
    repeat match goal with |- context [zlen (enc_opt ?a ?b)] => let X := fresh in pose proof (zlen_nonneg (enc_opt a b)) as X; revert X; generalize (zlen (enc_opt a b)); intros end.
    match goal with |- context [zlen (enc_rep ?a ?b)] => pose proof (zlen_nonneg (enc_rep a b)) end.
    match goal with |- context [zlen (d_unrec ?a)] => pose proof (zlen_nonneg (d_unrec a)) end.
    assert (X1 : zlen (varint 8) = 1) by (vm_compute; reflexivity). rewrite X1. lia. }
  clearbody bb. destruct (zlen bb =? 0) eqn:E; [lia|]. assert (X : 0 <= vlen (zlen bb)) by apply zlen_nonneg. lia.
Qed.
Lemma over_import c : zlen c = 1048576 -> exists n w', balanced_import 3 (limit 3) false [EvData c] astore = (Ok n, w') /\ 1048576 < block_len n.
Proof.
  intros Hc. unfold balanced_import, build, New. cbn [pr_nocopy limit andb]. unfold Balanced.Layout, NewLeafDataNode, Next, Done, bind, prepareNext.
  cbn -[NewLeafNode zlen layout_loop block_len].
  match goal with |- context [NewLeafNode _ _ ?d] => destruct (over_leaf c d TFile (or_introl eq_refl) Hc eq_refl) as (p & b & E & H) end.
  match goal with |- context [NewLeafNode ?a ?t ?d] => change (NewLeafNode a t d = Ok (NProto p b [])) in E end. rewrite E. cbn -[block_len zlen]. eexists _, _. split; [reflexivity|exact H].
Qed.
Lemma over_refuted : exists fuel dbp fi spl w n w', balanced_import fuel dbp fi spl w = (Ok n, w') /\ 1048576 < block_len n.
Proof.
  assert (Hc : zlen (repeat x00 (Z.to_nat 1048576)) = 1048576) by (rewrite zlen_repeat; lia).
  destruct (over_import _ Hc) as (n & w' & H). exists 3%nat, (limit 3), false, [EvData (repeat x00 (Z.to_nat 1048576))], astore, n, w'. exact H.
Qed.
