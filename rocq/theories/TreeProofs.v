(** Publishing a tree and finding it again. *)
From Coq Require Import Sorting.Sorted.
From Verif Require Import Base Pb FSNode Dag DagProofs Builder Balanced Trickle Importer HashBits Bitfield SpecHash HashProofs Hamt SpecHamt HamtExec HamtNode HamtWitness Walk WalkProofs WalkDir WalkWitness HamtAbs Directory SpecDir DirExec DirBasic DirectoryProofs DirFacts Reader SpecFile SpecReader ReaderRun ReaderProofs ReaderProofs2 ReaderWitness FSNodeProofs BuilderProofs ImportProofs Resolve SpecResolve ResolveProofs UnixFile SpecIter UnixFileProofs SpecTree.

(** ** The importers only add to the store *)

Definition mono {A} (m : M db A) : Prop := forall d, wext (db_w d) (db_w (snd (m d))).
Definition monof {A} (m : M (fsn * db) A) : Prop := forall s, wext (db_w (snd s)) (db_w (snd (snd (m s)))).
Lemma mono_bind {A B} (m : M db A) (f : A -> M db B) : mono m -> (forall a, mono (f a)) -> mono (bind m f).
Proof. intros H1 H2 d. unfold bind. specialize (H1 d). destruct (m d) as [[a|e| |] d']; cbn [snd] in *; auto. eapply wext_trans; [exact H1|apply H2]. Qed.
Lemma monof_bind {A B} (m : M (fsn * db) A) (f : A -> M (fsn * db) B) : monof m -> (forall a, monof (f a)) -> monof (bind m f).
Proof. intros H1 H2 d. unfold bind. specialize (H1 d). destruct (m d) as [[a|e| |] d']; cbn [snd] in *; auto. eapply wext_trans; [exact H1|apply H2]. Qed.
Lemma mono_lift {A} (r : res A) : mono (lift r).
Proof. intros d. apply wext_refl. Qed.
Lemma monof_lift {A} (r : res A) : monof (lift r).
Proof. intros d. apply wext_refl. Qed.
Lemma prepare_world d : db_w (prepareNext d) = db_w d.
Proof. unfold prepareNext. destruct (db_next d), (db_err d); try reflexivity. destruct (db_spl d) as [|[] ?]; reflexivity. Qed.
Lemma mono_Done : mono Done.
Proof. intros d. unfold Done. rewrite <- (prepare_world d). destruct (db_err (prepareNext d)); apply wext_refl. Qed.
Lemma mono_Next : mono Builder.Next.
Proof. intros d. unfold Builder.Next. rewrite <- (prepare_world d). cbn [db_set_input db_err]. destruct (db_err (prepareNext d)); apply wext_refl. Qed.
Lemma mono_Add x : mono (Add x).
Proof. intros d. unfold Add. destruct (dserv_add_spec (fst x) (snd x) (db_w d)) as (r & w' & -> & X & _). exact X. Qed.
Lemma mono_leaf t : mono (NewLeafDataNode t).
Proof.
  apply mono_bind; [apply mono_Next|]. intros a. apply mono_bind; [intros d; apply wext_refl|]. intros nd. apply mono_bind; [|intros x; apply mono_lift].
  intros d. unfold ProcessFileStore. destruct (db_fs d), nd; apply wext_refl.
Qed.
Lemma monof_child x z : monof (Builder.AddChild x z).
Proof. intros [n d]. unfold Builder.AddChild. pose proof (mono_Add x d) as H. destruct (Add x d). exact H. Qed.
Lemma monof_on {A} (m : M db A) : mono m -> monof (on_db m).
Proof. intros H [n d]. unfold on_db. specialize (H d). cbn [snd]. destruct (m d). exact H. Qed.
Lemma monof_commit : monof commit.
Proof. intros s. unfold commit. destruct (Commit (fst s)); apply wext_refl. Qed.
Lemma mono_with (f : db -> fsn) m : monof m -> mono (fun b => with_new (f b) m b).
Proof. intros H d. unfold with_new. specialize (H (f d, d)). destruct (m (f d, d)) as [[u|e| |] [n' d']]; exact H. Qed.
Lemma monof_fill mk : mono mk -> forall k, monof (fill_loop mk k).
Proof.
  intros H k. induction k as [|k IH]; intros s; cbn [fill_loop]; (destruct (fNumChildren (fst s) <? db_maxlinks (snd s)); [|apply wext_refl]); revert s;
  (apply (monof_bind (on_db Done)); [apply monof_on, mono_Done|]); (intros [|]; [apply monof_lift|]);
  (apply monof_bind; [now apply monof_on|]); intros c; (apply monof_bind; [apply monof_child|]); intros _; [apply monof_lift|exact IH].
Qed.
Lemma monof_rec dp : monof (fillNodeRec dp).
Proof.
  induction dp as [|dp IH]; intros s; cbn [fillNodeRec]; [apply wext_refl|]. apply (monof_bind (fill_loop _ (room s)) (fun _ => commit)); [|intros _; apply monof_commit].
  apply monof_fill. destruct dp; [apply mono_leaf|]. now apply mono_with.
Qed.
Lemma mono_loop fuel : forall dp root z, mono (layout_loop fuel dp root z).
Proof.
  induction fuel as [|f IH]; intros dp root z; cbn [layout_loop]; (apply mono_bind; [apply mono_Done|]); intros [|]; try apply mono_lift.
  apply mono_bind; [|intros r; apply IH]. apply mono_with. apply monof_bind; [apply monof_child|]. intros _. apply monof_rec.
Qed.
Lemma mono_balanced fuel : mono (Balanced.Layout fuel).
Proof.
  apply mono_bind; [apply mono_Done|]. intros [|].
  - apply mono_bind; [intros d; apply wext_refl|]. intros nd. apply mono_bind; [apply mono_Add|]. intros _. apply mono_lift.
  - apply mono_bind; [apply mono_leaf|]. intros r. apply mono_bind; [apply mono_loop|]. intros root. apply mono_bind; [apply mono_Add|]. intros _. apply mono_lift.
Qed.
Lemma monof_children mk : mono mk -> forall k, monof (add_children mk k).
Proof.
  intros H k. induction k as [|k IH]; cbn [add_children]; [apply monof_lift|]. apply monof_bind; [apply monof_on, mono_Done|]. intros [|]; [apply monof_lift|].
  apply monof_bind; [now apply monof_on|]. intros c. apply monof_bind; [apply monof_child|]. intros _. exact IH.
Qed.
Lemma monof_depth fill : (forall z, mono (fill z)) -> forall fuel a b, monof (depth_loop fill fuel a b).
Proof.
  intros H fuel. induction fuel as [|f IH]; intros a b; cbn [depth_loop]; (destruct ((b =? -1) || (a <? b)); [|apply monof_lift]);
  (apply monof_bind; [apply monof_on, mono_Done|]); (intros [|]; [apply monof_lift|]); (apply monof_bind; [now apply monof_children|]); intros _; [apply monof_lift|apply IH].
Qed.
Lemma monof_trickle fuel : forall z, monof (fillTrickleRec fuel z).
Proof.
  induction fuel as [|f IH]; intros z; cbn [fillTrickleRec]; [apply monof_lift|]. apply monof_bind.
  - intros s. apply (monof_bind (fill_loop _ (room s)) (fun _ => commit)); [|intros _; apply monof_commit]. apply monof_fill, mono_leaf.
  - intros _. apply monof_bind; [|intros _; apply monof_commit]. apply monof_depth. intros d. now apply mono_with.
Qed.
Lemma mono_trickle fuel : mono (Trickle.Layout fuel).
Proof.
  apply mono_bind; [apply mono_with, monof_trickle|]. intros r. apply mono_bind; [apply mono_Add|]. intros _. apply mono_lift.
Qed.
Lemma build_wext l dbp fi spl w r w' : mono l -> build l dbp fi spl w = (r, w') -> wext w w'.
Proof.
  intros H. unfold build. destruct (New dbp fi spl w) as [d|e| |] eqn:E; try (intros X; injection X as _ <-; apply wext_refl).
  specialize (H d). unfold New in E. destruct (pr_nocopy dbp && negb fi); [discriminate|]. injection E as <-. destruct (l _) as [r1 d1]. intros X. injection X as _ <-. exact H.
Qed.

(** ** Trees *)

Lemma map_data_inj (a b : list bytes) : map EvData a = map EvData b -> a = b.
Proof. revert b. induction a as [|x a IH]; destruct b as [|y b]; cbn; intros H; try discriminate; [reflexivity|]. injection H as -> H. f_equal. now apply IH. Qed.
Lemma got w m : ~ unreachable w -> stored w m = true -> dserv_get w m = Ok m.
Proof.
  intros Hu Hs. unfold dserv_get. rewrite Hs. destruct (w_getok w m) eqn:E; [reflexivity|]. exfalso. apply Hu. now exists m.
Qed.

Definition before (a b : link) : Prop := name_ltb (lname b) (lname a) = false.
Lemma linsert_sorted (l : link) ls : Sorted before ls -> Sorted before (linsert l ls).
Proof.
  induction 1 as [|m r H IH Hm]; [repeat constructor|]. cbn [linsert]. destruct (name_ltb (lname m) (lname l)) eqn:E.
  - constructor; [exact IH|]. apply name_ltb_spec in E. apply name_lt_asym in E. destruct r as [|m' r]; cbn [linsert]; [now constructor|]. destruct (name_ltb (lname m') (lname l)); constructor; [|exact E]. now inversion Hm.
  - constructor; [now constructor|]. now constructor.
Qed.
Lemma lsort_is_sorted (ls : list link) : Sorted before (lsort ls).
Proof. induction ls as [|l ls IH]; [constructor|]. now apply linsert_sorted. Qed.
Lemma sorted_lsort (ls : list link) : Sorted before ls -> lsort ls = ls.
Proof.
  induction 1 as [|m r H IH Hm]; [reflexivity|]. cbn [lsort]. rewrite IH. destruct r as [|m' r]; [reflexivity|]. cbn [linsert]. inversion Hm as [|? ? E]. unfold before in E. now rewrite E.
Qed.
Lemma seal_idem nd : seal (seal nd) = seal nd.
Proof. destruct nd as [p d|p d ls]; [reflexivity|]. cbn [seal]. f_equal. apply sorted_lsort, lsort_is_sorted. Qed.

Section Tree.
  Variables (hash : bytes -> bytes) (n : nat) (W : Z).
  Hypothesis Hn : (2 <= n)%nat.
  Hypothesis Hh : forall k, length (hash k) = n.
  Hypothesis Hv : valid_width W.
  Notation publishes := (publishes hash W).
  Notation publishes_all := (publishes_all hash W).

  Scheme pub_mut := Induction for SpecTree.publishes Sort Prop
  with pub_all_mut := Induction for SpecTree.publishes_all Sort Prop.
  Combined Scheme pub_ind2 from pub_mut, pub_all_mut.

  Definition part (t : tree) (w : world) (nd : node) (w' : world) : Prop :=
    wext w w' /\ seal nd = nd /\ stored w' nd = true /\
    match t with
    | TFile c => file_content nd c /\ forall m, reach nd m -> stored w' m = true
    | TLink target => exists p b, zlen target < two64 /\ SymlinkData target = Ok b /\ nd = NProto p b []
    | TDir kids => exists nodes w0 w1 b d, publishes_all kids w0 nodes w1 /\ wext w1 w' /\ saved hash W b w' nd d /\ (forall k, d k = option_map node_entry (assoc k nodes))
    end.
  Lemma wext_saved b w w' nd d : saved hash W b w nd d -> wext w w' -> saved hash W b w' nd d.
  Proof using. intros (x0 & w0 & x1 & w1 & nd0 & H1 & H2 & H3 & H4) X. exists x0, w0, x1, w1, nd0. repeat (split; [assumption|]). eapply wext_trans; eauto. Qed.
  Lemma content_seal nd c : file_content nd c -> seal nd = nd.
  Proof using. intros (cs & H & _). eapply file_dag_seal, H. Qed.
  Lemma add_stored nd w w' : dserv_add nd None w = (Ok tt, w') -> wext w w' /\ stored w' (seal nd) = true.
  Proof using.
    intros E. destruct (dserv_add_spec nd None w) as (r & w1 & E1 & X & _ & H). rewrite E in E1. injection E1 as <- <-. split; [assumption|].
    destruct H as [(_ & H & _)|(H & _)]; [exact H|discriminate].
  Qed.
  Lemma publish_parts : (forall t w nd w', publishes t w nd w' -> part t w nd w') /\ (forall kids w nodes w', publishes_all kids w nodes w' -> wext w w').
  Proof using Hn Hh Hv.
    apply pub_ind2.
    - intros fuel dbp fi chunks w root w' E. destruct (balanced_content _ _ _ _ _ _ _ E) as (c' & E1 & Hc & _). apply map_data_inj in E1. subst c'.
      pose proof (balanced_stored _ _ _ _ _ _ _ E) as Hs. split; [exact (build_wext _ _ _ _ _ _ _ (mono_balanced fuel) E)|]. split; [exact (content_seal _ _ Hc)|]. split; [apply Hs; constructor|]. split; assumption.
    - intros fuel dbp fi chunks w root w' Hk Hf E. rewrite <- (map_length EvData chunks) in Hf. destruct (trickle_content _ _ _ _ _ _ _ Hk Hf E) as (c' & E1 & Hc & _). apply map_data_inj in E1. subst c'.
      pose proof (trickle_stored _ _ _ _ _ _ _ Hk Hf E) as Hs. split; [exact (build_wext _ _ _ _ _ _ _ (mono_trickle fuel) E)|]. split; [exact (content_seal _ _ Hc)|]. split; [apply Hs; constructor|]. split; assumption.
    - intros target p b w w' Hl E Ha. apply add_stored in Ha as [X Hs]. split; [assumption|]. split; [reflexivity|]. split; [exact Hs|]. exists p, b. auto.
    - intros kids nodes w w1 b d0 cs h x1 w2 x2 nd w3 w4 Hk X1 E0 Hc Hr Hd Hg Ha. apply add_stored in Ha as [X4 Hs]. destruct folder_data as [D HD].
      pose proof (drun_ok hash n W _ Hn Hh (HPb b) Hv D HD false cs dempty (d0, w1) h (x1, w2) (new_good hash n W b D HD d0 w1 E0) Hc Hr) as (_ & _ & _ & _ & X2). cbn [snd] in X2.
      assert (Hsv : saved hash W b w3 (seal nd) (dcontents dempty h)). { exists x1, w2, x2, w3, nd. split; [exists d0, w1, cs, h; auto|]. split; [assumption|]. split; [reflexivity|apply wext_refl]. }
      assert (X3 : wext w2 w3).
      { pose proof (reached_good hash n W b Hn Hh Hv D HD (x1, w2) (dcontents dempty h) (ex_intro _ d0 (ex_intro _ w1 (ex_intro _ cs (ex_intro _ h (conj E0 (conj Hc (conj Hr eq_refl)))))))) as [_ G]. cbn [fst snd] in G. destruct x1 as [bb|hh]; cbn [dGetNode] in Hg.
        - injection Hg as _ _ <-. apply wext_refl.
        - pose proof (good_node hash n W _ Hh (HPb b) _ (h_shard hh) w2 G) as S. destruct (Node (h_shard hh) w2) as [r w']. injection Hg as _ _ <-. apply S. }
      split; [repeat (eapply wext_trans; [eassumption|]); apply wext_refl|]. split; [apply seal_idem|]. split; [assumption|].
      exists nodes, w, w1, b, (dcontents dempty h). split; [assumption|]. split; [repeat (eapply wext_trans; [eassumption|]); apply wext_refl|]. split; [eapply wext_saved; eauto|assumption].
    - intros t w nd w' w'' _ (H1 & H2 & H3 & H4) X. split; [eapply wext_trans; eauto|]. split; [assumption|]. split; [eapply wext_stored; eauto|]. destruct t.
      + destruct H4 as [H4 H5]. split; [assumption|]. intros m Hm. eapply wext_stored; [exact X|auto].
      + assumption.
      + destruct H4 as (nodes & w0 & w1 & b & d & A1 & A2 & A3 & A4). exists nodes, w0, w1, b, d. split; [assumption|]. split; [eapply wext_trans; eauto|]. split; [eapply wext_saved; eauto|assumption].
    - intros w. apply wext_refl.
    - intros k t kids w nd w1 nodes w2 _ (H1 & _) _ H2. eapply wext_trans; eauto.
  Qed.
  Lemma publish_part t w nd w' : publishes t w nd w' -> part t w nd w'.
  Proof using Hn Hh Hv. apply publish_parts. Qed.
  Lemma all_assoc k kids w nodes w' : publishes_all kids w nodes w' ->
    match assoc k kids, assoc k nodes with
    | Some t, Some nd => exists w1, publishes t w1 nd w'
    | None, None => True
    | _, _ => False
    end.
  Proof using Hn Hh Hv.
    induction 1 as [w|k' t kids w nd w1 nodes w2 H1 H2 IH]; [exact I|]. cbn [assoc]. destruct (bytes_eqb k' k); [|exact IH].
    exists w. eapply pub_more; [exact H1|]. eapply publish_parts, H2.
  Qed.
  Lemma assoc_in {A} k (l : list (bytes * A)) : assoc k l <> None <-> In k (map fst l).
  Proof using.
    induction l as [|[k' x] l IH]; cbn [assoc map fst]; [split; [congruence|intros []]|]. destruct (bytes_eqb k' k) eqn:E.
    - apply bytes_eqb_eq in E. split; [now left|congruence].
    - rewrite IH. split; [now right|]. intros [->|H]; [|exact H]. rewrite bytes_eqb_refl in E. discriminate.
  Qed.

  Lemma part_found t w nd w' : ~ unreachable w' -> part t w nd w' -> finds w' nd t.
  Proof using Hn Hh Hv.
    intros Hu (_ & _ & Hs & H). destruct t as [c|target|kids]; cbn [finds].
    - destruct H as [Hc Hr]. intros Hl ops Ho. apply file_opens; auto. intros l m Hin Hm. apply got; [assumption|]. apply Hr. econstructor; eassumption.
    - destruct H as (p & b & Hl & E & ->). destruct (link_opens w' p [] target Hl) as (b' & E' & H & _). congruence.
    - destruct H as (nodes & w0 & w1 & b & d & Ha & _ & Hd & He). destruct (directory_opens hash n W b w' nd d Hn Hh Hv Hd) as (x & Ex & _). destruct folder_data as [D HD].
      destruct (saved_dir hash n W Hn Hh Hv b w' nd d D HD Hd) as (x' & Ex' & G). assert (x' = x) as ->.
      { destruct nd as [|p dd ls]; [discriminate|]. cbn [NewUnixfsFile] in Ex. destruct (FSNodeFromBytes dd); try discriminate. cbn [rbind] in Ex. destruct (IsDir _); [|destruct (_ =? _); [discriminate|destruct (NewDagReader _ _); discriminate]]. unfold newUnixfsDir in Ex. rewrite Ex' in Ex. cbn [rmap] in Ex. congruence. }
      pose proof (dEach_ok hash n W _ Hh (HPb b) D false d x w' G) as S. exists x. destruct (dEach _ (x, w')) as [[r acc] st'] eqn:Ee. destruct S as (_ & _ & _ & S). specialize (S eq_refl). cbn [q_w q_w' q_res q_op] in S.
      destruct r as [[]|e| |]; cbn [rmap] in S.
      2:{ exfalso. destruct S as [[S _]|[(_ & _ & S)|(_ & l & S & _)]]; [exact (Hu S)|exact S|discriminate]. }
      2:{ exfalso. destruct S as [[S _]|[(_ & _ & S)|(_ & l & S & _)]]; [exact (Hu S)|exact S|discriminate]. }
      2:{ exfalso. destruct S as [[S _]|[(_ & _ & S)|(_ & l & S & _)]]; [exact (Hu S)|exact S|discriminate]. }
      destruct S as [[S _]|[(_ & _ & S)|(_ & l & S & HL)]]; [destruct (Hu S)|destruct S|]. injection S as <-.
      exists acc, st'. split; [assumption|]. split; [reflexivity|]. destruct HL as [L1 L2]. assert (En : map fst (map named (rev acc)) = rev (map lname acc)) by (rewrite map_map, <- map_rev; apply map_ext; reflexivity).
      rewrite En in L1. split; [rewrite <- (rev_involutive (map lname acc)); apply NoDup_rev, L1|]. intros k. rewrite <- assoc_in. rewrite in_rev, <- En.
      pose proof (all_assoc k _ _ _ _ Ha) as Hk. split.
      + intros Hi. apply in_map_iff in Hi as ([k' e] & E1 & Hi). cbn [fst] in E1. subst k'. apply L2 in Hi. rewrite He in Hi. destruct (assoc k kids); [discriminate|]. destruct (assoc k nodes); [contradiction|discriminate].
      + intros Hi. destruct (assoc k kids); [|congruence]. destruct (assoc k nodes) as [m|] eqn:Em; [|contradiction]. apply in_map_iff. exists (k, node_entry m). split; [reflexivity|]. apply L2. rewrite He, Em. reflexivity.
  Qed.

  Lemma file_no_entry w nd c (k : bytes) (rest : list bytes) : file_content nd c -> k <> [] -> ResolveUnixfsOnce hash w nd (k :: rest) = Err ELinkNotFound.
  Proof using.
    intros (cs & H & _) Hk. destruct H as [p d|p b fs E Ht _ _|p b fs ls css _ Hu E Ht _ _ _ _]; [reflexivity|..].
    - cbn [ResolveUnixfsOnce]. rewrite E. destruct Ht as [-> | ->]; reflexivity.
    - pose proof (resolve_plain hash w p b ls k rest) as R. assert (Hp : forall fsn, FSNodeFromBytes b = Ok fsn -> getType fsn <> THAMTShard) by (intros f Ef; rewrite E in Ef; injection Ef as <-; destruct Ht as [-> | ->]; discriminate).
      specialize (R Hp). destruct (ResolveUnixfsOnce hash w (NProto p b ls) (k :: rest)) as [[[l|] r]|e| |]; try contradiction; [|destruct R as [-> _]; reflexivity].
      exfalso. destruct R as (_ & R1 & a & c' & -> & _). rewrite Forall_app in Hu. destruct Hu as [_ Hu]. inversion Hu; subst. congruence.
  Qed.
  Lemma tree_found (path : list bytes) : forall t w nd w', publishes t w nd w' -> ~ unreachable w' -> Forall (fun k : bytes => k <> []) path -> outcome hash w' nd path (at_path t path).
  Proof using Hn Hh Hv.
    induction path as [|k path IH]; intros t w nd w' Hp Hu HF; pose proof (publish_part _ _ _ _ Hp) as HP.
    - cbn. exists nd. split; [reflexivity|]. eapply part_found; eauto.
    - inversion HF as [|? ? Hk HF']; subst. cbn [at_path]. destruct HP as (_ & Hsl & Hst & HP). destruct t as [c|target|kids].
      + unfold outcome. right. cbn [length resolve_all]. destruct HP as [Hc _]. pose proof (file_no_entry w' nd c k path Hc Hk) as R. rewrite R. reflexivity.
      + right. cbn [length resolve_all]. destruct HP as (p & b & Hl & E & ->). cbn [ResolveUnixfsOnce]. destruct (SymlinkData_decode target Hl) as (b' & E1 & E2). assert (b' = b) by congruence. subst b'.
        unfold FSNodeFromBytes. rewrite E2. reflexivity.
      + destruct HP as (nodes & w0 & w1 & b & d & Ha & X & Hs & He). pose proof (resolve_saved hash n W Hn Hh Hv b w' nd d k path Hs Hk) as R. pose proof (all_assoc k _ _ _ _ Ha) as Hka.
        specialize (He k). destruct (assoc k kids) as [t'|], (assoc k nodes) as [m|]; try contradiction; cbn [option_map] in He.
        * destruct Hka as [wk Hpk]. assert (Hpk' : publishes t' wk m w') by (eapply pub_more; eauto). destruct (publish_part _ _ _ _ Hpk') as (_ & Sl & St & _).
          specialize (IH t' wk m w' Hpk' Hu HF'). unfold outcome in *. cbn [length resolve_all]. destruct (ResolveUnixfsOnce hash w' nd (k :: path)) as [[[l|] r]|e| |]; try contradiction.
          2:{ destruct R as [[R _]|[_ R]]; [congruence|contradiction]. }
          destruct R as [-> R]. rewrite He in R. injection R as _ R. cbn [rbind fst snd]. rewrite <- R, Sl, (got w' m Hu St). cbn [rbind]. exact IH.
        * unfold outcome. cbn [length resolve_all]. destruct (ResolveUnixfsOnce hash w' nd (k :: path)) as [[[l|] r]|e| |]; try contradiction.
          -- destruct R as [_ R]. congruence.
          -- destruct R as [[_ [->| ->]]|[_ R]]; [now left|now right|contradiction].
  Qed.

  (** *** Every well named tree can be published, with sharding disabled. *)
  Fixpoint tree_rect2 (P : tree -> Prop) (HF : forall c, P (TFile c)) (HL : forall c, P (TLink c)) (HD : forall kids, Forall P (map snd kids) -> P (TDir kids)) (t : tree) : P t :=
    match t with
    | TFile c => HF c
    | TLink c => HL c
    | TDir kids => HD kids ((fix go (l : list (bytes * tree)) : Forall P (map snd l) := match l with [] => Forall_nil _ | x :: r => Forall_cons _ (tree_rect2 P HF HL HD (snd x)) (go r) end) kids)
    end.
  Lemma concat_bytes (c : bytes) : concat (map (fun b => [b]) c) = c.
  Proof using. induction c as [|b c IH]; [reflexivity|]. cbn. now rewrite IH. Qed.
  Definition puts_all (nodes : list (bytes * node)) (d : dir) : dir := fold_left (fun d x => dput d (fst x) (Some (node_entry (snd x)))) nodes d.
  Lemma add_all P D w (HD : FolderPBData = Ok D) : forall nodes d b, bgood P D d b ->
    exists h b', drun hash W false (DBasic b, w) (map (fun x => (0, DAdd (fst x) (snd x))) nodes) h (DBasic b', w) /\ dcontents d h = puts_all nodes d.
  Proof using.
    induction nodes as [|[k nd] nodes IH]; intros d b Hb; cbn [map].
    - exists [], b. split; [constructor|reflexivity].
    - destruct (bAddChild_spec P D d b k nd Hb) as (b1 & E & Hb1). destruct (IH _ _ Hb1) as (h & b' & Hr & Hc). exists (mkDobs (DAdd k nd) w w (Ok VUnit) :: h), b'. split.
      + apply (dr_cons hash W false 0 (DAdd k nd) (DBasic b, w) (Ok VUnit) (DBasic b1, w)); [|exact Hr]. exists (Ok tt). split; [|reflexivity]. cbn [dAddChild fst snd]. unfold needsToSwitchToHAMTDir. cbn [Z.eqb]. rewrite E. split; reflexivity.
      + exact Hc.
  Qed.
  Lemma puts_assoc nodes : NoDup (map fst nodes) -> forall d k, puts_all nodes d k = match assoc k nodes with Some m => Some (node_entry m) | None => d k end.
  Proof using.
    induction nodes as [|[k' nd] nodes IH]; intros Hd d k; [reflexivity|]. cbn [map fst] in Hd. inversion Hd as [|? ? H1 H2]; subst. cbn [puts_all fold_left fst snd assoc]. fold (puts_all nodes). rewrite IH by assumption. unfold dput. destruct (bytes_eqb k' k) eqn:E.
    - apply bytes_eqb_eq in E. subst k'. rewrite bytes_eqb_refl. destruct (assoc k nodes) eqn:Ea; [|reflexivity]. exfalso. apply H1. apply assoc_in. congruence.
    - destruct (assoc k nodes); [reflexivity|]. destruct (bytes_eqb k k') eqn:E'; [|reflexivity]. apply bytes_eqb_eq in E'. subst k'. rewrite bytes_eqb_refl in E. discriminate.
  Qed.
  Lemma add_works nd w : (forall i, w_addok w i = true) -> exists w', dserv_add nd None w = (Ok tt, w').
  Proof using. intros H. destruct (dserv_add_spec nd None w) as (r & w' & E & _ & _ & [(-> & _)|(_ & F)]); [eauto|]. rewrite H in F. discriminate. Qed.
  Lemma tree_published : forall t, well_named t -> forall w, (forall i, w_addok w i = true) -> exists nd w', publishes t w nd w'.
  Proof using Hn Hh Hv.
    apply (tree_rect2 (fun t => well_named t -> forall w, (forall i, w_addok w i = true) -> exists nd w', publishes t w nd w')).
    - intros c _ w Hw. destruct (balanced_succeeds_ default_params false (map (fun b => [b]) c) w (length (map (fun b : byte => [b]) c)) (proj2 default_limit) (le_n _)) as (root & w' & E); [|assumption|discriminate|].
      { apply Forall_forall. intros x Hx. apply in_map_iff in Hx as (b & <- & _). discriminate. }
      exists root, w'. rewrite <- (concat_bytes c). eapply pub_balanced, E.
    - intros c Hc w Hw. inversion Hc; subst. destruct (SymlinkData_decode c) as (b & E & _); [assumption|]. destruct (add_works (NProto v0prefix b []) w Hw) as [w' Ea]. exists (NProto v0prefix b []), w'. eapply pub_link; eauto.
    - intros kids IH Hwn w Hw. inversion Hwn as [| |? H1 H2 H3]; subst.
      assert (Hk : exists nodes w1, publishes_all kids w nodes w1 /\ map fst nodes = map fst kids).
      { clear H1 H2 Hwn. revert w Hw. induction kids as [|[k t] kids IHk]; intros w Hw; [exists [], w; split; [constructor|reflexivity]|].
        cbn [map snd] in IH, H3. inversion IH as [|? ? I1 I2]; inversion H3 as [|? ? J1 J2]; subst. destruct (I1 J1 w Hw) as (nd & w1 & Hp). pose proof (proj1 (publish_part _ _ _ _ Hp)) as X.
        destruct (IHk I2 J2 w1) as (nodes & w2 & Hp2 & E); [intros i; rewrite (proj1 (proj2 X)); apply Hw|]. exists ((k, nd) :: nodes), w2. split; [econstructor; eauto|]. cbn [map fst]. now f_equal. }
      destruct Hk as (nodes & w1 & Hp & En). pose proof (proj2 publish_parts _ _ _ _ Hp) as X. destruct folder_data as [D HD].
      destruct (new_exists None D HD) as [d0 E0]. pose proof (new_good hash n W None D HD d0 w1 E0) as [_ G]. cbn [fst snd] in G.
      destruct d0 as [bb|hh]; [|unfold NewDirectory in E0; destruct newEmptyBasicDirectory; discriminate].
      destruct (add_all _ D w1 HD nodes dempty bb G) as (h & b' & Hr & Hc). destruct (add_works (NProto (b_prefix b') (b_data b') (b_links b')) w1) as [w4 Ea]; [intros i; rewrite (proj1 (proj2 X)); apply Hw|].
      eexists _, w4. eapply pub_dir; [exact Hp|exact E0| |exact Hr| |reflexivity|exact Ea].
      + unfold named_dops. rewrite map_map. cbn [snd]. apply Forall_forall. intros op Ho. apply in_map_iff in Ho as ([k m] & <- & Hi). cbn. intros E. injection E as ->. rewrite <- En in H2. rewrite Forall_forall in H2. apply (H2 []); [|reflexivity]. apply in_map_iff. exists ([], m). auto.
      + intros k. rewrite Hc, puts_assoc by now rewrite En. unfold dempty. now destruct (assoc k nodes).
  Qed.
End Tree.
