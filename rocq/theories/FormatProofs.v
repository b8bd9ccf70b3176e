(** The format of blocks is kept by everything an import, an append or a modifier does. *)
From Verif Require Import Base Pb FSNode Dag DagProofs Builder Balanced Trickle Importer Reader Modifier SpecFile SpecModifier SpecFormat
  BuilderProofs GrowProofs ModifierProofs ModifierRun ModifierFacts AppendRun SizesProofs KindProofs.

Section Format.
  Variable P : bool -> prefix -> Prop.
  (** The builder and the blocks that were in the store before. *)
  Variables (b : option prefix) (r : bool) (a0 : list (node * option Z)).
  Hypothesis HP : P false (proto_prefix b).
  Hypothesis HR : r = true -> P true (raw_prefix b).
  Notation fmt := (of_format P).

  Lemma fmt_raw p d : fmt (NRaw p d) <-> P true p.
  Proof.
    split; [intros H; exact (H _ (reach_self _))|]. intros H m Hm. inversion Hm; subst; [exact H|]. contradiction.
  Qed.
  Lemma fmt_node p d ls : fmt (NProto p d ls) <-> P false p /\ forall l, In l ls -> fmt (lto l).
  Proof.
    split.
    - intros H. split; [exact (H _ (reach_self _))|]. intros l Hl m Hm. apply H. eapply reach_link; [|exact Hm]. exact Hl.
    - intros (H1 & H2) m Hm. inversion Hm; subst; [exact H1|]. eapply H2; eassumption.
  Qed.
  Lemma fmt_links n l : fmt n -> In l (node_links n) -> fmt (lto l).
  Proof. intros H Hl m Hm. apply H. eapply reach_link; eassumption. Qed.
  Lemma fmt_seal n : fmt n -> fmt (seal n).
  Proof. destruct n as [p d|p d ls]; [auto|]. cbn [seal]. rewrite !fmt_node. intros (H1 & H2). split; [exact H1|]. intros l Hl. apply H2. now apply In_lsort. Qed.

  Definition wok (w : world) : Prop := forall x, In x (w_added w) -> In x a0 \/ fmt (fst x).
  Lemma add_wok n o w : fmt n -> wok w -> wok (snd (dserv_add n o w)).
  Proof.
    intros Hn Hw. unfold dserv_add. destruct (w_addok w (w_calls w)); [|exact Hw]. intros x Hx. cbn in Hx. apply in_app_iff in Hx. destruct Hx as [Hx|[<-|[]]]; [now apply Hw|].
    right. now apply fmt_seal.
  Qed.

  (** ** The builder *)

  Definition dbok (d : db) : Prop := db_builder d = b /\ db_raw d = r /\ wok (db_w d).
  Definition nok (n : fsn) : Prop := P false (f_prefix n) /\ forall l, In l (f_links n) -> fmt (lto l).
  Definition ok (s : fsn * db) : Prop := nok (fst s) /\ dbok (snd s).
  Notation keeps m := (trip ok m (fun _ => ok) ok).
  Notation makes m := (trip dbok m (fun (c : xnode * Z) d => fmt (fst (fst c)) /\ dbok d) dbok).
  Notation stays m := (trip dbok m (fun _ => dbok) dbok).

  Lemma nok_fmt n : nok n -> fmt (GetDagNode n).
  Proof. intros H. apply fmt_node. exact H. Qed.
  Lemma prepare_ok d : dbok d -> dbok (prepareNext d).
  Proof. unfold prepareNext. destruct (db_next d), (db_err d); auto. destruct (db_spl d) as [|[] ?]; auto. Qed.
  Lemma done_ok : stays Done.
  Proof. intros d H. unfold Done. apply prepare_ok in H. destruct (db_err (prepareNext d)); exact H. Qed.
  Lemma next_ok : stays Next.
  Proof. intros d H. unfold Next. apply prepare_ok in H. cbn. destruct (db_err (prepareNext d)); exact H. Qed.
  Lemma add_ok x : fmt (fst x) -> stays (Add x).
  Proof.
    intros Hx d (H1 & H2 & H3). unfold Add. pose proof (add_wok (fst x) (snd x) (db_w d) Hx H3) as H. destruct (dserv_add _ _ _) as [[[]| | |] w']; split; auto.
  Qed.
  Lemma leaf_node_fmt data t d n : dbok d -> NewLeafNode data t d = Ok n -> fmt n.
  Proof.
    intros (H1 & H2 & H3) E. unfold NewLeafNode in E. destruct (_ <? _); [discriminate|]. destruct (db_raw d) eqn:Er.
    - injection E as <-. apply fmt_raw. rewrite H1. apply HR. congruence.
    - unfold Commit in E. destruct (GetBytes _) as [b'| | |]; try discriminate. cbn [rbind] in E. injection E as <-. apply fmt_node. cbn. rewrite H1. split; [exact HP|intros l []].
  Qed.
  Lemma f_leaf t : makes (NewLeafDataNode t).
  Proof.
    intros d H. unfold NewLeafDataNode. rewrite bind_at. pose proof (next_ok d H) as Hn. destruct (Next d) as [[data| | |] d1]; try exact Hn.
    unfold bind at 1. destruct (NewLeafNode data t d1) as [n| | |] eqn:En; try exact Hn. pose proof (leaf_node_fmt _ _ _ _ Hn En) as Hf.
    unfold bind at 1, ProcessFileStore. destruct (db_fs d1), n; cbn [ret]; (split; [exact Hf|]); exact Hn.
  Qed.
  Lemma new_nok t : nok (NewFSNodeOverDag b t).
  Proof. split; [exact HP|intros l []]. Qed.

  Lemma f_on_db {X} (m : M db X) (Q : X -> Prop) : trip dbok m (fun a d => Q a /\ dbok d) dbok -> trip ok (on_db m) (fun a s => ok s /\ Q a) ok.
  Proof.
    intros H [n d] (Hn & Hd). unfold on_db. cbn [fst snd] in *. specialize (H d Hd). destruct (m d) as [[a| | |] d']; try (split; [exact Hn|exact H]).
    split; [split; [exact Hn|apply H]|apply H].
  Qed.
  Lemma f_done : keeps (on_db Done).
  Proof. intros [n d] (Hn & Hd). unfold on_db. cbn [fst snd] in *. pose proof (done_ok d Hd) as H. destruct (Done d) as [[a| | |] d']; (split; [exact Hn|exact H]). Qed.
  Lemma f_AddChild x z : trip (fun s => ok s /\ fmt (fst x)) (AddChild x z) (fun _ => ok) ok.
  Proof.
    intros [n d] (((H1 & H2) & Hd) & Hx). unfold AddChild. cbn [fst snd] in *. pose proof (add_ok x Hx d Hd) as H.
    assert (Hn : nok (mkFsn (f_prefix n) (f_bytes n) (f_links n ++ [make_link [] (fst x)]) (AddBlockSize z (f_file n)))).
    { split; [exact H1|]. cbn [f_links]. intros l Hl. apply in_app_iff in Hl. destruct Hl as [Hl|[<-|[]]]; [auto|now apply fmt_seal]. }
    destruct (Add x d) as [[[]| | |] d']; (split; [exact Hn|exact H]).
  Qed.
  Lemma commit_nok n n' : Commit n = Ok n' -> nok n -> nok n'.
  Proof. unfold Commit. destruct (GetBytes _); try discriminate. cbn [rbind]. intros [= <-]. auto. Qed.
  Lemma f_commit : keeps commit.
  Proof.
    intros [n d] (Hn & Hd). unfold commit. cbn [fst snd] in *. pose proof (commit_nok n) as C. destruct (Commit n) as [n'| | |]; (split; [|exact Hd]); try exact Hn. now apply C.
  Qed.
  Lemma f_fill mk : makes mk -> forall fuel, keeps (fill_loop mk fuel).
  Proof.
    intros Hm. induction fuel as [|f IH]; intros s Hs; cbn [fill_loop]; (destruct (_ <? _); [|exact Hs]); revert s Hs;
      match goal with |- forall s, _ -> match ?m s with _ => _ end => change (keeps m) end.
    all: eapply trip_bind; [apply f_done|]; intros dn; apply trip_if; [apply trip_ret|];
      eapply trip_bind; [apply (f_on_db mk (fun c => fmt (fst (fst c)))), Hm|]; intros [x z]; eapply trip_bind; [apply (f_AddChild x z)|]; intros u; first [apply trip_fuel|exact IH].
  Qed.
  Lemma f_layer : keeps FillNodeLayer.
  Proof. intros s Hs. unfold FillNodeLayer. refine (trip_bind _ _ ok (fun _ => ok) (fun _ => ok) ok _ _ s Hs); [apply f_fill, f_leaf|intros u; apply f_commit]. Qed.
  Lemma f_add_children mk : makes mk -> forall k, keeps (add_children mk k).
  Proof.
    intros Hm. induction k as [|k IH]; cbn [add_children]; [apply trip_ret|]. eapply trip_bind; [apply f_done|]. intros dn. apply trip_if; [apply trip_ret|].
    eapply trip_bind; [apply (f_on_db mk (fun c => fmt (fst (fst c)))), Hm|]. intros [x z]. eapply trip_bind; [apply (f_AddChild x z)|]. intros ?. exact IH.
  Qed.
  Lemma f_depth fill : (forall z, makes (fill z)) -> forall fuel depth mx, keeps (depth_loop fill fuel depth mx).
  Proof.
    intros Hm. induction fuel as [|f IH]; intros depth mx; cbn [depth_loop]; (apply trip_if; [|apply trip_ret]); (eapply trip_bind; [apply f_done|]); intros dn;
      (apply trip_if; [apply trip_ret|]); (eapply trip_bind; [apply f_add_children, Hm|]); intros ?; [apply trip_fuel|apply IH].
  Qed.
  Lemma f_with_new n m d : nok n -> keeps m -> dbok d -> match with_new n m d with (Ok c, d') => fmt (fst (fst c)) /\ dbok d' | (_, d') => dbok d' end.
  Proof.
    intros Hn Hm Hd. unfold with_new. specialize (Hm (n, d) (conj Hn Hd)). destruct (m (n, d)) as [[[]| | |] [n' d2]]; destruct Hm as (H1 & H2); try exact H2.
    split; [now apply nok_fmt|exact H2].
  Qed.
  Lemma f_trickle_rec fuel : forall mx, keeps (fillTrickleRec fuel mx).
  Proof.
    induction fuel as [|f IH]; intros mx; cbn [fillTrickleRec]; [apply trip_fuel|]. eapply trip_bind; [apply f_layer|]. intros ?.
    eapply trip_bind; [|intros ?; apply f_commit]. apply f_depth. intros z d Hd. apply f_with_new; [rewrite (proj1 Hd); apply new_nok|apply IH|exact Hd].
  Qed.
  Lemma f_subtree fuel z : makes (new_subtree fuel z).
  Proof. intros d Hd. unfold new_subtree. apply f_with_new; [rewrite (proj1 Hd); apply new_nok|apply f_trickle_rec|exact Hd]. Qed.
  Lemma f_get_db : keeps get_db. Proof. intros s Hs. exact Hs. Qed.
  Lemma f_get_fsn : keeps get_fsn. Proof. intros s Hs. exact Hs. Qed.

  (** ** Imports *)

  Lemma f_node_rec depth : keeps (fillNodeRec depth).
  Proof.
    induction depth as [|k IH]; [intros s Hs; exact Hs|]. intros s Hs. cbn [fillNodeRec].
    refine (trip_bind _ _ ok (fun _ => ok) (fun _ => ok) ok _ _ s Hs); [|intros u; apply f_commit].
    apply f_fill. destruct k as [|k']; [apply f_leaf|]. intros d Hd. apply f_with_new; [rewrite (proj1 Hd); apply new_nok|exact IH|exact Hd].
  Qed.
  Lemma f_layout fuel : forall depth root fs, fmt (fst root) -> trip dbok (layout_loop fuel depth root fs) (fun x d => fmt (fst x) /\ dbok d) dbok.
  Proof.
    induction fuel as [|f IH]; intros depth root fs Hr; cbn [layout_loop].
    - eapply trip_bind; [apply done_ok|]. intros dn. apply trip_if; [intros s H; split; assumption|apply trip_fuel].
    - eapply trip_bind; [apply done_ok|]. intros dn. apply trip_if; [intros s H; split; assumption|].
      apply trip_bind with (Q := fun (c : xnode * Z) d => fmt (fst (fst c)) /\ dbok d).
      + intros d Hd. apply f_with_new; [rewrite (proj1 Hd); apply new_nok| |exact Hd].
        eapply trip_bind; [eapply trip_weaken; [apply (f_AddChild root fs)| |intros a0' s0 H; exact H]; intros s H; split; [exact H|exact Hr]|]. intros ?. apply f_node_rec.
      + intros [x z] s [H1 H2]. exact (IH _ _ _ H1 s H2).
  Qed.
  Lemma f_end x : fmt (fst x) -> trip dbok (bind (Add x) (fun _ => ret (seal (fst x)))) (fun n d => fmt n /\ dbok d) dbok.
  Proof. intros Hx. eapply trip_bind; [apply (add_ok x Hx)|]. intros u d H. split; [now apply fmt_seal|exact H]. Qed.
  Lemma f_balanced fuel : trip dbok (Balanced.Layout fuel) (fun n d => fmt n /\ dbok d) dbok.
  Proof.
    unfold Balanced.Layout. eapply trip_bind; [apply done_ok|]. intros dn. apply trip_if.
    - intros d Hd. rewrite bind_at. destruct (NewLeafNode _ _ _) as [n| | |] eqn:En; try exact Hd. exact (f_end (n, None) (leaf_node_fmt _ _ _ _ Hd En) d Hd).
    - eapply trip_bind; [apply f_leaf|]. intros [x z].
      apply trip_bind with (Q := fun c d => fmt (fst c) /\ dbok d); [intros d (H1 & H2); exact (f_layout fuel _ _ _ H1 d H2)|].
      intros root d (H1 & H2). exact (f_end root H1 d H2).
  Qed.
  Lemma f_trickle fuel : trip dbok (Trickle.Layout fuel) (fun n d => fmt n /\ dbok d) dbok.
  Proof.
    unfold Trickle.Layout. eapply trip_bind; [apply f_subtree|]. intros [x z] d (H1 & H2). exact (f_end x H1 d H2).
  Qed.

  (** ** Append *)

  Lemma open_nok p d ls n : fmt (NProto p d ls) -> NewFSNFromDag p d ls = Ok n -> nok n.
  Proof. unfold NewFSNFromDag. destruct (FSNodeFromBytes d); try discriminate. intros H [= <-]. apply fmt_node in H. exact H. Qed.
  Lemma f_last_child fuel rec depth rep : (forall z, keeps (rec z)) -> keeps (appendFillLastChild fuel rec depth rep).
  Proof.
    intros Hr s Hs. unfold appendFillLastChild. rewrite bind_at. cbn [get_fsn]. rewrite bind_at. cbn [get_db].
    destruct (_ <=? _); [exact Hs|]. cbv zeta. rewrite bind_at. unfold lift at 1.
    destruct (GetChild _ _ _) as [c| | |] eqn:Ec; try exact Hs.
    assert (Hc : nok c).
    { unfold GetChild in Ec. destruct (_ <? 0); [discriminate|]. destruct (nth_error _ _) as [l|] eqn:El; [|discriminate].
      pose proof (get_cases (db_w (snd s)) (lto l)) as G. destruct (dserv_get (db_w (snd s)) (lto l)) as [k| | |]; try discriminate. subst k. cbn [rbind] in Ec.
      destruct (lto l) as [|q d ls] eqn:En; [discriminate|]. eapply open_nok; [|exact Ec]. rewrite <- En. apply Hs. eapply nth_error_In, El. }
    rewrite bind_at. unfold on_fsn at 1. pose proof (Hr (depth - 1) (c, snd s) (conj Hc (proj2 Hs))) as Hc'.
    destruct (rec (depth - 1) (c, snd s)) as [[[]| | |] [c' d']]; destruct Hc' as (Hc' & Hd'); cbn [fst snd] in *; try (exact (conj (proj1 Hs) Hd')).
    rewrite bind_at. unfold lift at 1. destruct (RemoveChild _ _) as [n1| | |] eqn:En; try (exact (conj (proj1 Hs) Hd')).
    assert (Hn1 : nok n1).
    { unfold RemoveChild in En. destruct (RemoveBlockSize _ _) as [f1| | |] eqn:Ef; try discriminate. cbn [rbind] in En. destruct (_ <=? _); [discriminate|]. injection En as <-.
      destruct Hs as ((H1 & H2) & _). split; [exact H1|]. cbn [f_links]. intros l Hl. apply H2. apply in_app_iff in Hl. destruct Hl as [Hl|Hl].
      - rewrite <- (firstn_skipn (Z.to_nat (fNumChildren (fst s) - 1)) (f_links (fst s))). apply in_or_app. now left.
      - rewrite <- (firstn_skipn (Z.to_nat (fNumChildren (fst s) - 1 + 1)) (f_links (fst s))). apply in_or_app. now right. }
    rewrite bind_at. cbn [set_fsn]. rewrite bind_at. unfold lift at 1. pose proof (commit_nok c') as C. destruct (Commit c') as [c2| | |]; try (exact (conj Hn1 Hd')). cbn [fst snd].
    refine (trip_bind _ _ (fun s => ok s /\ fmt (GetDagNode c2)) (fun _ => ok) (fun _ => ok) ok (f_AddChild (GetDagNode c2, None) (fFileSize c')) _ (n1, d') _).
    - intros u. apply trip_if; [apply trip_ret|]. apply f_add_children. apply f_subtree.
    - split; [exact (conj Hn1 Hd')|]. apply nok_fmt. now apply C.
  Qed.
  Lemma f_append_rec fuel rfuel : forall mx, keeps (appendRec fuel rfuel mx).
  Proof.
    induction rfuel as [|rf IH]; intros mx; cbn [appendRec]; (apply trip_if; [apply trip_ret|]);
      (eapply trip_bind; [apply f_done|]); intros [|]; try apply trip_ret; [apply trip_fuel|].
    eapply trip_bind; [apply f_get_fsn|]. intros n. eapply trip_bind; [apply f_get_db|]. intros bb.
    destruct (trickleDepthInfo n (db_maxlinks bb)) as [d0 rep].
    eapply trip_bind with (Q := fun _ => ok); [apply trip_if; [eapply trip_bind; [apply f_layer|intros []; apply trip_ret]|apply trip_ret]|].
    intros depth. apply trip_if; [apply trip_ret|]. eapply trip_bind; [apply f_last_child, IH|]. intros [].
    eapply trip_bind; [apply f_done|]. intros d2. apply trip_if; [|apply trip_ret].
    apply f_depth, f_subtree.
  Qed.
  Lemma f_append_body fuel rfuel : keeps (append_body fuel rfuel).
  Proof.
    unfold append_body. eapply trip_bind; [apply f_get_fsn|]. intros n. eapply trip_bind; [apply f_get_db|]. intros bb.
    destruct (trickleDepthInfo n (db_maxlinks bb)) as [d0 rep]. eapply trip_bind with (Q := fun c => ok).
    - apply trip_if; [|apply trip_ret]. eapply trip_bind; [apply f_layer|]. intros [].
      eapply trip_bind; [apply f_done|]. intros d2. apply trip_ret.
    - intros [depth|]; [|apply trip_ret].
      eapply trip_bind; [apply f_last_child; intros; apply f_append_rec|]. intros [].
      eapply trip_bind; [apply f_done|]. intros d2.
      eapply trip_bind; [apply f_depth, f_subtree|]. intros []. apply f_commit.
  Qed.
  Lemma f_append fuel rfuel dbp fi spl base w : pr_builder dbp = b -> pr_raw dbp = r -> fmt base -> wok w ->
    let '(x, base', w') := trickle_append fuel rfuel dbp fi spl base w in fmt base' /\ wok w' /\ (forall root, x = Ok root -> fmt root).
  Proof.
    intros H1 H2 Hb Hw. unfold trickle_append, New. destruct (_ && negb fi); [split; [exact Hb|split; [exact Hw|discriminate]]|].
    set (d := mkDb _ _ _ _ _ _ _ _ _). assert (Hd : dbok d) by (split; [exact H1|split; [exact H2|exact Hw]]). clearbody d. unfold Append.
    destruct base as [p q|p q ls]; [split; [exact Hb|split; [apply Hd|discriminate]]|].
    destruct (NewFSNFromDag p q ls) as [n| | |] eqn:En; try (split; [exact Hb|split; [apply Hd|discriminate]]).
    pose proof (f_append_body fuel rfuel (n, d) (conj (open_nok _ _ _ _ Hb En) Hd)) as H.
    destruct (append_body fuel rfuel (n, d)) as [[[]| | |] [n' d']]; destruct H as (F & G); apply nok_fmt in F; cbn [fst snd] in *;
      (split; [exact F|split; [apply G|]]); try discriminate. intros root [= <-]. exact F.
  Qed.

  (** ** Overwriting *)

  Lemma f_add_leaf n buf w : fmt n -> wok w -> let '(x, _, w') := add_leaf n buf w in wok w' /\ (forall k, x = Ok k -> fmt k).
  Proof.
    intros Hn Hw. unfold add_leaf. pose proof (add_wok n None w Hn Hw) as H. destruct (dserv_add n None w) as [[[]| | |] w']; (split; [exact H|]); try discriminate.
    intros k [= <-]. now apply fmt_seal.
  Qed.
  Lemma f_modify_leaf n off buf w : node_links n = [] -> fmt n -> wok w -> let '(x, _, w') := modify_leaf n off buf w in wok w' /\ (forall k, x = Ok k -> fmt k).
  Proof.
    intros Hl Hn Hw. unfold modify_leaf. destruct n as [p d|p d ls].
    - destruct (_ <? _); [split; [exact Hw|discriminate]|]. destruct (buf_read _ _) as [new buf']. apply f_add_leaf; [|exact Hw]. apply fmt_raw. now apply fmt_raw in Hn.
    - destruct (FSNodeFromBytes d) as [f| | |]; try (split; [exact Hw|discriminate]). destruct (_ <? _); [split; [exact Hw|discriminate]|]. destruct (buf_read _ _) as [new buf'].
      destruct (GetBytes _) as [d'| | |]; try (split; [exact Hw|discriminate]). apply f_add_leaf; [|exact Hw]. apply fmt_node. apply fmt_node in Hn. split; [apply Hn|intros l []].
  Qed.
  Lemma set_link_fmt i k ls : fmt k -> (forall l, In l ls -> fmt (lto l)) -> forall l, In l (set_link i k ls) -> fmt (lto l).
  Proof.
    revert i. induction ls as [|y t IH]; intros [|i] Hk Hl l Hi; cbn [set_link] in Hi; try contradiction.
    - destruct Hi as [<-|Hi]; [exact Hk|apply Hl; now right].
    - destruct Hi as [<-|Hi]; [apply Hl; now left|]. eapply IH; [exact Hk| |exact Hi]. intros z Hz. apply Hl. now right.
  Qed.
  Lemma f_modify_links rec :
    (forall c o bf w, fmt c -> wok w -> let '(x, _, w') := rec c o bf w in wok w' /\ (forall k, x = Ok k -> fmt k)) ->
    forall sizes i cur off ls buf w, (forall l, In l ls -> fmt (lto l)) -> wok w ->
      let '(_, ls', _, w') := modify_links rec sizes i cur off ls buf w in (forall l, In l ls' -> fmt (lto l)) /\ wok w'.
  Proof.
    intros Hr. induction sizes as [|bs t IH]; intros i cur off ls buf w Hl Hw; cbn [modify_links]; [split; assumption|].
    destruct (off <? _); [|now apply IH]. destruct (nth_error ls i) as [l|] eqn:En; [|split; assumption].
    pose proof (get_cases w (lto l)) as G. destruct (dserv_get w (lto l)) as [child| | |]; try (split; assumption). subst child.
    specialize (Hr (lto l) (u64 (off - cur)) buf w (Hl l (nth_error_In _ _ En)) Hw). destruct (rec (lto l) _ buf w) as [[x buf'] w']. destruct Hr as (Hw' & Hk).
    destruct x as [k| | |]; try (split; assumption). pose proof (set_link_fmt i k ls (Hk k eq_refl) Hl) as HS.
    assert (HS' : forall z, In z (lsort (set_link i k ls)) -> fmt (lto z)) by (intros z Hz; apply HS; now apply In_lsort).
    destruct (_ =? 0); [split; assumption|]. now apply IH.
  Qed.
  Lemma f_modifyDag fuel : forall n off buf w, fmt n -> wok w ->
    let '(x, _, w', n') := modifyDag fuel n off buf w in fmt n' /\ wok w' /\ (forall k, x = Ok k -> fmt k).
  Proof.
    induction fuel as [|f IH]; intros n off buf w Hf Hw; cbn [modifyDag]; destruct (node_links n) as [|l0 r0] eqn:En;
      try (pose proof (f_modify_leaf n off buf w En Hf Hw) as H; destruct (modify_leaf n off buf w) as [[? ?] ?]; exact (conj Hf H));
      destruct n as [p d|p d ls]; cbn [node_links] in En; try discriminate; subst ls;
      destruct (FSNodeFromBytes d) as [fs| | |]; try (split; [exact Hf|split; [exact Hw|discriminate]]).
    assert (Hr : forall c o bf ww, fmt c -> wok ww -> let '(x, _, w') := fst (modifyDag f c o bf ww) in wok w' /\ (forall k, x = Ok k -> fmt k)).
    { intros c o bf ww Hc Hww. specialize (IH c o bf ww Hc Hww). destruct (modifyDag f c o bf ww) as [[[? ?] ?] ?]. cbn [fst]. tauto. }
    pose proof (f_modify_links (fun c o bf ww => fst (modifyDag f c o bf ww)) Hr (d_blocksizes fs) 0 0 off (l0 :: r0) buf w (fun l => fmt_links _ l Hf) Hw) as H.
    destruct (modify_links _ _ _ _ _ _ _ _) as [[[x ls'] buf'] w']. destruct H as (H1 & H2).
    assert (F : fmt (NProto p d ls')) by (apply fmt_node; apply fmt_node in Hf; split; [apply Hf|exact H1]).
    destruct x as [[]| | |]; try (split; [exact F|split; [exact H2|discriminate]]). pose proof (fmt_seal _ F) as F'.
    pose proof (add_wok _ None w' F H2) as HA. destruct (dserv_add _ _ w') as [[[]| | |] w2]; (split; [exact F'|split; [exact HA|]]); try discriminate. intros k [= <-]. exact F'.
  Qed.

  (** ** Truncating *)

  Lemma f_trunc_links rec :
    (forall c o w, fmt c -> wok w -> let '(x, w') := rec c o w in wok w' /\ (forall k, x = Ok k -> fmt k)) ->
    forall ls i cur size f w, (forall l, In l ls -> fmt (lto l)) -> wok w ->
      let '(x, w') := trunc_links rec ls i cur size f w in wok w' /\ (forall e k f', x = Ok (Some (e, k), f') -> fmt k).
  Proof.
    intros Hr. induction ls as [|l t IH]; intros i cur size f w Hl Hw; cbn [trunc_links]; [split; [exact Hw|discriminate]|].
    pose proof (get_cases w (lto l)) as G. destruct (dserv_get w (lto l)) as [child| | |]; try (split; [exact Hw|discriminate]). subst child.
    destruct (fileSize (lto l)) as [cs| | |]; try (split; [exact Hw|discriminate]). destruct (_ <? _); [|apply IH; [intros x Hx; apply Hl; now right|exact Hw]].
    specialize (Hr (lto l) (u64 (size - cur)) w (Hl l (or_introl eq_refl)) Hw). destruct (rec (lto l) _ w) as [[nc| | |] w']; destruct Hr as (Hw' & Hk); (split; [exact Hw'|]); try discriminate.
    intros e k f' [= _ <- _]. auto.
  Qed.
  Lemma f_dagTruncate fuel : forall n size w, fmt n -> wok w -> let '(x, w') := dagTruncate fuel n size w in wok w' /\ (forall k, x = Ok k -> fmt k).
  Proof.
    assert (L : forall p d size w, fmt (NProto p d []) -> wok w -> let '(x, w') := dagTruncate 0 (NProto p d []) size w in wok w' /\ (forall k, x = Ok k -> fmt k)).
    { intros p d size w Hf Hw. cbn [dagTruncate node_links]. destruct (FSNodeFromBytes d) as [f| | |]; try (split; [exact Hw|discriminate]). destruct (_ <? _); [split; [exact Hw|discriminate]|].
      destruct (WrapData _) as [d'| | |]; (split; [exact Hw|]); try discriminate. intros k [= <-]. apply fmt_node. apply fmt_node in Hf. split; [apply Hf|intros l []]. }
    induction fuel as [|fu IH]; intros n size w Hf Hw; cbn [dagTruncate]; destruct n as [p d|p d [|l0 ls]]; cbn [node_links] in *.
    1,4: destruct (_ <? _); (split; [exact Hw|]); try discriminate; intros k [= <-]; apply fmt_raw; now apply fmt_raw in Hf.
    1,3: exact (L p d size w Hf Hw).
    - destruct (FSNodeFromBytes d); (split; [exact Hw|discriminate]).
    - destruct (FSNodeFromBytes d) as [f| | |]; try (split; [exact Hw|discriminate]).
      pose proof (f_trunc_links (dagTruncate fu) IH (l0 :: ls) 0 0 size (RemoveAllBlockSizes f) w (fun l => fmt_links _ l Hf) Hw) as H.
      destruct (trunc_links _ _ _ _ _ _ _) as [[[[[e modified]|] f']| | |] w']; destruct H as (Hw' & Hk); try (split; [exact Hw'|discriminate]). specialize (Hk _ _ _ eq_refl).
      pose proof (add_wok modified None w' Hk Hw') as HA. destruct (dserv_add modified None w') as [[[]| | |] w2]; try (split; [exact HA|discriminate]).
      destruct (GetBytes f') as [d'| | |]; (split; [exact HA|]); try discriminate. intros k [= <-].
      apply (fmt_seal (NProto p d' (firstn e (l0 :: ls) ++ [make_link [] modified]))), fmt_node. apply fmt_node in Hf. split; [apply Hf|].
      intros l Hl. apply in_app_iff in Hl. destruct Hl as [Hl|[<-|[]]]; [|now apply fmt_seal].
      apply Hf. rewrite <- (firstn_skipn e (l0 :: ls)). apply in_or_app. now left.
  Qed.

  (** ** The modifier *)

  Definition mok (s : mst) : Prop :=
    match m_node (fst s) with Some n => fmt n | None => True end /\ wok (snd s) /\ b = Some (m_prefix (fst s)) /\ r = m_raw (fst s).
  Notation safe m := (trip mok m (fun _ => mok) mok).
  Lemma fs_same {X} (m : M mst X) :
    (forall s, m_node (fst (snd (m s))) = m_node (fst s) /\ w_added (snd (snd (m s))) = w_added (snd s) /\
      m_prefix (fst (snd (m s))) = m_prefix (fst s) /\ m_raw (fst (snd (m s))) = m_raw (fst s)) -> safe m.
  Proof.
    intros Hn s H. destruct (Hn s) as (E1 & E2 & E3 & E4). assert (H' : mok (snd (m s))) by (unfold mok, wok in *; now rewrite E1, E2, E3, E4).
    destruct (m s) as [[a| | |] s']; exact H'.
  Qed.
  Lemma fs_lift {X} (x : res X) : safe (lift x).
  Proof. intros s H. unfold lift. destruct x; exact H. Qed.
  Lemma fs_throw {X} e : safe (throw (A := X) e).
  Proof. intros s H. exact H. Qed.
  Lemma fs_ret {X} (a : X) : safe (ret a).
  Proof. intros s H. exact H. Qed.
  Lemma fs_bind {X Y} (m : M mst X) (k : X -> M mst Y) : safe m -> (forall a, safe (k a)) -> safe (bind m k).
  Proof. intros Hm Hk. eapply trip_bind; [exact Hm|exact Hk]. Qed.
  Lemma fs_get_mod : safe get_mod.
  Proof. now apply fs_same. Qed.
  Lemma fs_cur_node : safe cur_node.
  Proof. apply fs_same; intros s; unfold cur_node; destruct (m_node (fst s)) eqn:E; auto. Qed.
  Lemma fs_mod_add n : trip (fun s => fmt n /\ mok s) (mod_add n) (fun _ s => fmt n /\ mok s) mok.
  Proof.
    intros [m w] (Hn & H1 & H2 & H3). unfold mod_add. cbn [fst snd] in *. pose proof (add_wok n None w Hn H2) as H.
    destruct (dserv_add n None w) as [[[]| | |] w']; repeat split; auto; try apply H3.
  Qed.
  Lemma fs_append_cur chunks : trip mok (append_cur chunks) (fun nn s => fmt nn /\ mok s) mok.
  Proof.
    intros [m w] HJ. unfold append_cur. cbn [fst snd]. pose proof HJ as HJ'. destruct HJ as (H1 & H2 & H3 & H4). cbn [fst snd] in *.
    destruct (m_node m) as [n|] eqn:En; [|exact HJ']. unfold appendData.
    match goal with |- context [trickle_append ?a ?q ?c ?d ?e ?f ?g] => pose proof (f_append a q c d e f g (eq_sym H3) (eq_sym H4) H1 H2) as H;
      destruct (trickle_append a q c d e f g) as [[x n'] w'] end. destruct H as (F & W & H).
    assert (HN : mok (m_change_node n n' m, w')).
    { unfold mok. destruct n, m; cbn in *; try rewrite En; auto. }
    destruct x as [root| | |]; try exact HN. split; [now apply H|exact HN].
  Qed.
  Lemma fs_expand size : safe (expandSparse size).
  Proof.
    unfold expandSparse. eapply trip_bind; [apply fs_append_cur|]. intros nn. eapply trip_weaken; [apply fs_mod_add|auto|]. intros a s (_ & H). exact H.
  Qed.
  Lemma fs_truncate_cur size : trip mok (truncate_cur size) (fun nn s => fmt nn /\ mok s) mok.
  Proof.
    intros [m w] HJ. pose proof HJ as HJ'. unfold truncate_cur. destruct HJ as (H1 & H2 & H3). cbn [fst snd] in *. destruct (m_node m) as [n|] eqn:En; [|exact HJ'].
    pose proof (f_dagTruncate (weight n) n size w H1 H2) as H. destruct (dagTruncate _ _ _ _) as [[nn| | |] w']; destruct H as (W & H);
      try (unfold mok; cbn [fst snd]; rewrite En; auto).
    specialize (H nn eq_refl). split; [exact H|]. unfold mok. destruct n, m; cbn in *; try rewrite En; auto.
  Qed.
  Lemma fs_modify_cur : trip mok modify_cur (fun k s => fmt k /\ mok s) mok.
  Proof.
    intros [m w] HJ. pose proof HJ as HJ'. unfold modify_cur. destruct HJ as (H1 & H2 & H3). cbn [fst snd] in *.
    destruct (m_node m) as [n|] eqn:En, (m_buf m) as [buf|] eqn:Eb; try exact HJ'.
    pose proof (f_modifyDag (weight n) n (m_start m) buf w H1 H2) as H.
    destruct (modifyDag _ _ _ _ _) as [[[x buf'] w'] n']. destruct H as (F & W & H).
    assert (HN : mok (m_set_buf (Some buf') (m_set_node (Some n') m), w')) by (unfold mok; cbn; auto).
    destruct x as [k| | |]; try exact HN. split; [now apply H|exact HN].
  Qed.
  Lemma fs_get_cur k : trip (fun s => fmt k /\ mok s) (get_cur k) (fun _ => mok) mok.
  Proof.
    intros [m w] (Hk & HJ). unfold get_cur. cbn [fst snd]. pose proof (get_cases w k) as G. destruct (dserv_get w k) as [n| | |]; try exact HJ; [subst n|];
    destruct HJ as (H1 & H2 & H3); unfold mok; cbn; auto.
  Qed.
  Hint Resolve fs_ret fs_lift fs_throw fs_get_mod fs_cur_node fs_expand : fmtdb.
  Ltac fmt_seq :=
    repeat (intros; first [ solve [auto with fmtdb nocore] | apply fs_bind
      | match goal with |- trip _ (match ?x with _ => _ end) _ _ => destruct x end
      | apply fs_same; intros; cbn; repeat (match goal with |- context [match ?x with _ => _ end] => destruct x end; cbn; try (repeat split; reflexivity)); repeat split; reflexivity ]).
  Variable split : bytes -> list bytes.
  Variable wbsize : Z.
  Lemma fs_overwrite (k : M mst unit) : safe k -> safe (bind modify_cur (fun c => bind (get_cur c) (fun _ => k))).
  Proof. intros Hk. eapply trip_bind; [apply fs_modify_cur|]. intros c. eapply trip_bind; [apply fs_get_cur|]. intros u. exact Hk. Qed.
  Lemma fs_append_rest buf : safe (bind (append_buf split buf) (fun nn => mod_add nn)).
  Proof.
    eapply trip_bind with (Q := fun nn s => fmt nn /\ mok s); [|intros nn; eapply trip_weaken; [apply fs_mod_add|auto|intros a s (_ & H); exact H]].
    intros s HJ. pose proof (fs_append_cur (split buf) s HJ) as H. unfold append_buf.
    destruct (append_cur (split buf) s) as [[n|e| |] [m w]]; try exact H.
    - destruct H as (Hn & H1 & H2 & H3). split; [exact Hn|]. unfold mok. cbn. auto.
    - destruct H as (H1 & H2 & H3). unfold mok. cbn. auto.
  Qed.
  Hint Resolve fs_append_rest : fmtdb.
  Lemma fs_Sync : safe (Sync split).
  Proof.
    unfold Sync. apply fs_bind; [apply fs_get_mod|]. intros m0. destruct (m_buf m0) as [buf0|]; [|apply fs_ret].
    apply fs_bind; [fmt_seq|]. intros []. apply fs_bind; [apply fs_cur_node|]. intros n0. apply fs_bind; [apply fs_lift|]. intros fs.
    apply fs_bind; [fmt_seq|]. intros []. apply fs_overwrite. fmt_seq.
  Qed.
  Hint Resolve fs_Sync : fmtdb.
  Lemma fs_Size : safe mSize.
  Proof. unfold mSize. fmt_seq. Qed.
  Hint Resolve fs_Size : fmtdb.
  Lemma fs_Write x : safe (mWrite split wbsize x).
  Proof. unfold mWrite. fmt_seq. Qed.
  Hint Resolve fs_Write : fmtdb.
  Lemma fs_WriteAt x off : safe (WriteAt split wbsize x off).
  Proof. unfold WriteAt. fmt_seq. Qed.
  Lemma fs_readPrep : safe (readPrep split).
  Proof. unfold readPrep. fmt_seq. apply fs_same; intros s; destruct (m_node (fst s)) eqn:E; auto. Qed.
  Hint Resolve fs_readPrep : fmtdb.
  Lemma fs_Read k : safe (mRead split k).
  Proof. unfold mRead. fmt_seq. Qed.
  Lemma fs_read_seek off wh : safe (read_seek off wh).
  Proof.
    apply fs_same; intros s; unfold read_seek; destruct (m_read (fst s)) as [r'|]; try (repeat split; reflexivity);
    destruct (Seek (snd s) off wh r') as [[i e] r2]; repeat split; reflexivity.
  Qed.
  Hint Resolve fs_read_seek : fmtdb.
  Lemma fs_Seek off wh : safe (mSeek split off wh).
  Proof. unfold mSeek. fmt_seq. Qed.
  Lemma fs_cut size : safe (bind (truncate_cur size) (fun nn => bind (mod_add nn) (fun _ => upd_mod (m_set_node (Some nn))))).
  Proof.
    eapply trip_bind; [apply fs_truncate_cur|]. intros nn. eapply trip_bind; [apply fs_mod_add|]. intros [] s (Hl & _ & H). split; [exact Hl|exact H].
  Qed.
  Hint Resolve fs_cut : fmtdb.
  Lemma fs_Truncate size : safe (mTruncate split size).
  Proof. unfold mTruncate. fmt_seq. Qed.
  Lemma fs_GetNode : trip mok (mGetNode split) (fun n s => fmt n /\ mok s) mok.
  Proof.
    unfold mGetNode. eapply trip_bind; [apply fs_Sync|intros u]. intros s HJ. pose proof HJ as HJ'. destruct HJ as (H1 & _). cbn. unfold cur_node.
    destruct (m_node (fst s)) as [n|] eqn:E; [|exact HJ']. split; assumption.
  Qed.
  Lemma fs_after op s : mok s -> mok (mod_after split wbsize op s).
  Proof.
    intros HJ.
    assert (K : forall X (m : M mst X), safe m -> mok (snd (m s))) by (intros X m H; specialize (H s HJ); destruct (m s) as [[?| | |] ?]; exact H).
    destruct op; cbn [mod_after]; apply K;
      first [apply fs_Write|apply fs_WriteAt|apply fs_Seek|apply fs_Truncate|apply fs_Read|apply fs_Size|apply fs_Sync|idtac].
    eapply trip_weaken; [apply fs_GetNode|auto|]. intros a s0 H. apply H.
  Qed.
  Lemma fs_history ops : forall s, mok s -> mok (mod_history split wbsize ops s).
  Proof. unfold mod_history. induction ops as [|op ops IH]; intros s HJ; cbn [fold_left]; [exact HJ|]. apply IH, fs_after, HJ. Qed.
End Format.

Lemma import_format (P : bool -> prefix -> Prop) layout dbp fi spl w : P false (proto_prefix (pr_builder dbp)) -> (pr_raw dbp = true -> P true (raw_prefix (pr_builder dbp))) ->
  trip (dbok P (pr_builder dbp) (pr_raw dbp) (w_added w)) layout (fun n d => of_format P n /\ dbok P (pr_builder dbp) (pr_raw dbp) (w_added w) d) (dbok P (pr_builder dbp) (pr_raw dbp) (w_added w)) ->
  let '(x, w') := build layout dbp fi spl w in adds_format P w w' /\ (forall n, x = Ok n -> of_format P n).
Proof.
  intros HP HR HL. unfold build, New. assert (W0 : wok P (w_added w) w) by (intros x Hx; now left). destruct (_ && negb fi); [split; [exact W0|discriminate]|].
  set (d := mkDb _ _ _ _ _ _ _ _ _). assert (Hd : dbok P (pr_builder dbp) (pr_raw dbp) (w_added w) d) by (split; [reflexivity|split; [reflexivity|exact W0]]).
  specialize (HL d Hd). clearbody d. destruct (layout d) as [[n| | |] d']; [destruct HL as (H1 & H)|pose proof HL as H..]; (split; [apply H|]); try discriminate.
  intros m [= <-]. exact H1.
Qed.
Lemma balanced_format (P : bool -> prefix -> Prop) fuel dbp fi spl w x w' : P false (proto_prefix (pr_builder dbp)) -> (pr_raw dbp = true -> P true (raw_prefix (pr_builder dbp))) ->
  balanced_import fuel dbp fi spl w = (x, w') -> adds_format P w w' /\ (forall n, x = Ok n -> of_format P n).
Proof.
  intros HP HR E. pose proof (import_format P (Balanced.Layout fuel) dbp fi spl w HP HR (f_balanced _ _ _ _ HP HR fuel)) as H.
  unfold balanced_import in E. rewrite E in H. exact H.
Qed.
Lemma trickle_format (P : bool -> prefix -> Prop) fuel dbp fi spl w x w' : P false (proto_prefix (pr_builder dbp)) -> (pr_raw dbp = true -> P true (raw_prefix (pr_builder dbp))) ->
  trickle_import fuel dbp fi spl w = (x, w') -> adds_format P w w' /\ (forall n, x = Ok n -> of_format P n).
Proof.
  intros HP HR E. pose proof (import_format P (Trickle.Layout fuel) dbp fi spl w HP HR (f_trickle _ _ _ _ HP HR fuel)) as H.
  unfold trickle_import in E. rewrite E in H. exact H.
Qed.
Lemma append_format (P : bool -> prefix -> Prop) fuel rfuel dbp fi spl base w x base' w' :
  P false (proto_prefix (pr_builder dbp)) -> (pr_raw dbp = true -> P true (raw_prefix (pr_builder dbp))) -> of_format P base ->
  trickle_append fuel rfuel dbp fi spl base w = (x, base', w') -> adds_format P w w' /\ (forall n, x = Ok n -> of_format P n).
Proof.
  intros HP HR Hb E. pose proof (f_append P (pr_builder dbp) (pr_raw dbp) (w_added w) HP HR fuel rfuel dbp fi spl base w eq_refl eq_refl Hb) as H.
  rewrite E in H. destruct H as (_ & H); [intros y Hy; now left|exact H].
Qed.

Lemma history_format (P : bool -> prefix -> Prop) split wbsize n w ops v c h k : node_prefix n = mkPrefix v c h k -> k <> -1 ->
  P false (mkPrefix v 112 h k) -> (0 < v -> P true (mkPrefix 1 85 h k)) -> of_format P n ->
  adds_format P w (snd (mod_history split wbsize ops (NewDagModifier n, w))) /\
  forall m s', mGetNode split (mod_history split wbsize ops (NewDagModifier n, w)) = (Ok m, s') -> of_format P m /\ adds_format P w (snd s').
Proof.
  intros Ep Hk HP HR Hn. set (q := m_prefix (NewDagModifier n)).
  assert (E1 : proto_prefix (Some q) = mkPrefix v 112 h k).
  { unfold q, NewDagModifier. cbn [m_prefix]. rewrite Ep. unfold proto_prefix, with_codec, resolve, DagProtobuf. destruct k as [|k|[k|k|]]; try reflexivity; contradiction. }
  assert (E2 : raw_prefix (Some q) = mkPrefix 1 85 h k).
  { unfold q, NewDagModifier. cbn [m_prefix]. rewrite Ep. unfold raw_prefix, with_codec, resolve, DagProtobuf, RawCodec. destruct k as [|k|[k|k|]]; try reflexivity; contradiction. }
  assert (HP' : P false (proto_prefix (Some q))) by now rewrite E1.
  assert (HR' : m_raw (NewDagModifier n) = true -> P true (raw_prefix (Some q))).
  { rewrite E2. intros H. apply HR. unfold NewDagModifier in H. cbn [m_raw] in H. rewrite Ep in H. cbn [p_version] in H. lia. }
  pose proof (fs_history P (Some q) _ (w_added w) HP' HR' split wbsize ops (NewDagModifier n, w)) as H.
  assert (H0 : mok P (Some q) (m_raw (NewDagModifier n)) (w_added w) (mod_history split wbsize ops (NewDagModifier n, w))).
  { apply H. split; [exact Hn|]. split; [intros x Hx; now left|]. split; reflexivity. }
  split; [apply H0|]. intros m s' E. pose proof (fs_GetNode P (Some q) _ (w_added w) HP' HR' split _ H0) as G. rewrite E in G. split; apply G.
Qed.
Lemma history_v0 split wbsize n w ops : of_format cidv0 n ->
  adds_format cidv0 w (snd (mod_history split wbsize ops (NewDagModifier n, w))) /\
  forall m s', mGetNode split (mod_history split wbsize ops (NewDagModifier n, w)) = (Ok m, s') -> of_format cidv0 m /\ adds_format cidv0 w (snd s').
Proof.
  intros Hn. destruct (Hn n (reach_self n)) as (_ & Ep). apply (history_format cidv0 _ _ _ _ _ _ _ _ _ Ep); [discriminate|split; reflexivity|lia|exact Hn].
Qed.
Lemma history_v1 split wbsize n w ops h k : k <> -1 -> of_format (cidv1 h k) n ->
  adds_format (cidv1 h k) w (snd (mod_history split wbsize ops (NewDagModifier n, w))) /\
  forall m s', mGetNode split (mod_history split wbsize ops (NewDagModifier n, w)) = (Ok m, s') -> of_format (cidv1 h k) m /\ adds_format (cidv1 h k) w (snd s').
Proof.
  intros Hk Hn. pose proof (Hn n (reach_self n)) as Ep. apply (history_format (cidv1 h k) _ _ _ _ _ _ _ _ _ Ep); [exact Hk|reflexivity|reflexivity|exact Hn].
Qed.

(** ** Deciding the format *)

Fixpoint all_blocks (p : node -> bool) (n : node) : bool :=
  p n && match n with NRaw _ _ => true | NProto _ _ ls => forallb (fun l => all_blocks p (lto l)) ls end.
Lemma all_blocks_iff p n : all_blocks p n = true <-> (forall m, reach n m -> p m = true).
Proof.
  induction n as [q d|q d ls IH] using DagProofs.node_ind'; cbn [all_blocks].
  - rewrite andb_true_iff. split; [intros (H & _) m Hm; inversion Hm; subst; [exact H|contradiction]|]. intros H. split; [apply H, reach_self|reflexivity].
  - rewrite andb_true_iff, forallb_forall. split.
    + intros (H & HL) m Hm. inversion Hm as [|? l ? Hl Hm' E1 E2]; subst; [exact H|]. cbn [node_links] in Hl. rewrite Forall_forall in IH. apply (proj1 (IH l Hl) (HL l Hl)). exact Hm'.
    + intros H. split; [apply H, reach_self|]. intros l Hl. rewrite Forall_forall in IH. apply (IH l Hl). intros m Hm. apply H. eapply reach_link; [|exact Hm]. exact Hl.
Qed.

(** ** Witnesses *)

Definition same_format (p q : prefix) : bool :=
  (p_version p =? p_version q) && (p_codec p =? p_codec q) && (p_mhtype p =? p_mhtype q) && (p_mhlen p =? p_mhlen q).
Lemma same_format_eq p q : same_format p q = true -> p = q.
Proof. destruct p, q. unfold same_format. cbn. intros H. rewrite !andb_true_iff, !Z.eqb_eq in H. destruct H as (((-> & ->) & ->) & ->). reflexivity. Qed.
Definition v0_b (m : node) : bool := negb (is_raw m) && same_format (node_prefix m) (mkPrefix 0 112 18 32).
Lemma v0_dec n : all_blocks v0_b n = true -> of_format cidv0 n.
Proof.
  intros H m Hm. apply (proj1 (all_blocks_iff _ _) H) in Hm. unfold v0_b in Hm. apply andb_true_iff in Hm as (H1 & H2). split; [now destruct (is_raw m)|now apply same_format_eq in H2].
Qed.
Definition v1_b (m : node) : bool := same_format (node_prefix m) (mkPrefix 1 (if is_raw m then 85 else 112) 18 32).
Lemma v1_dec n : all_blocks v1_b n = true -> of_format (cidv1 18 32) n.
Proof. intros H m Hm. apply (proj1 (all_blocks_iff _ _) H) in Hm. now apply same_format_eq in Hm. Qed.
Definition leaf_b (r : bool) (m : node) : bool := match node_links m with [] => Bool.eqb (is_raw m) r | _ => true end.
Lemma leaves_dec r n : all_blocks (leaf_b r) n = true <-> raw_leaves r n.
Proof.
  rewrite all_blocks_iff. unfold raw_leaves, leaf_b. split; intros H m Hm; [intros E; specialize (H m Hm); rewrite E in H; now apply Bool.eqb_prop|].
  destruct (node_links m) eqn:E; [|reflexivity]. rewrite (H m Hm E). apply Bool.eqb_reflx.
Qed.

(** Three chunks imported with dag-pb leaves as CIDv0 and CIDv1, and with raw leaves below
    dag-pb nodes of either version. *)
Definition three_chunks : list event := map EvData [[x61; x62]; [x63; x64]; [x65]].
Definition v1pb : prefix := mkPrefix 1 112 18 32.
Definition params_of (raw : bool) (q : option prefix) : params := mkParams 3 raw q false.
Definition made (raw : bool) (q : option prefix) : res node * world := trickle_import 9 (params_of raw q) false three_chunks astore.
Definition made_node raw q : node := ok_node (fst (made raw q)).
Definition edits : list mop := [MWriteAt [x7a; x7a] 1; MSeek 0 2; MWrite [x41; x42; x43]; MSync; MTruncate 6; MWriteAt [x30] 9; MGetNode].
Definition edited raw q : mst := mod_history KindProofs.single 100 edits (NewDagModifier (made_node raw q), snd (made raw q)).
Definition edited_node raw q : node := ok_node (fst (mGetNode KindProofs.single (edited raw q))).

Lemma leaves_refuted : exists split n w k s',
  raw_leaves false n /\ mGetNode split (mod_history split 100 [MSeek 0 2; MWrite [x41]] (NewDagModifier n, w)) = (Ok k, s') /\ ~ raw_leaves false k /\ ~ raw_leaves true k.
Proof.
  pose (x := mGetNode KindProofs.single (mod_history KindProofs.single 100 [MSeek 0 2; MWrite [x41]] (NewDagModifier (made_node false (Some v1pb)), snd (made false (Some v1pb))))).
  exists KindProofs.single, (made_node false (Some v1pb)), (snd (made false (Some v1pb))), (ok_node (fst x)), (snd x).
  split; [apply leaves_dec; vm_compute; reflexivity|]. split; [vm_compute; reflexivity|]. rewrite <- !leaves_dec. split; vm_compute; discriminate.
Qed.
Lemma leaves_refuted_v0 : exists split n w k s',
  raw_leaves true n /\ mGetNode split (mod_history split 100 [MSeek 0 2; MWrite [x41]] (NewDagModifier n, w)) = (Ok k, s') /\ ~ raw_leaves false k /\ ~ raw_leaves true k.
Proof.
  pose (x := mGetNode KindProofs.single (mod_history KindProofs.single 100 [MSeek 0 2; MWrite [x41]] (NewDagModifier (made_node true None), snd (made true None)))).
  exists KindProofs.single, (made_node true None), (snd (made true None)), (ok_node (fst x)), (snd x).
  split; [apply leaves_dec; vm_compute; reflexivity|]. split; [vm_compute; reflexivity|]. rewrite <- !leaves_dec. split; vm_compute; discriminate.
Qed.
