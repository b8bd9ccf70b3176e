(** The basic directory as a map with an exact size. *)
From Verif Require Import Base Pb PbProofs FSNode FSNodeProofs Dag DagProofs Builder HashBits SpecHash HashProofs Hamt SpecHamt HamtExec HamtRep HamtRun Directory SpecDir DirExec.
From Coq Require Import Permutation Sorted.

Lemma cid_len_nonneg p : 0 <= cid_len p.
Proof. unfold cid_len, vlen, zlen. destruct (_ =? _); lia. Qed.
Lemma linkSize_nonneg k n : 0 <= linkSize k n.
Proof. unfold linkSize, zlen. pose proof (cid_len_nonneg (node_prefix n)). lia. Qed.
Lemma linksSize_cons l ls : linksSize (l :: ls) = linkSize (lname l) (lto l) + linksSize ls.
Proof. reflexivity. Qed.
Lemma linksSize_app a b : linksSize (a ++ b) = linksSize a + linksSize b.
Proof. induction a as [|l a IH]; [reflexivity|]. cbn [app]. rewrite !linksSize_cons, IH. lia. Qed.
Lemma linksSize_nonneg ls : 0 <= linksSize ls.
Proof. induction ls as [|l ls IH]; [reflexivity|]. rewrite linksSize_cons. pose proof (linkSize_nonneg (lname l) (lto l)). lia. Qed.
Lemma linksSize_perm a b : Permutation a b -> linksSize a = linksSize b.
Proof. induction 1; rewrite ?linksSize_cons; lia. Qed.
Lemma estimate ls : computeEstimatedSize ls = linksSize ls.
Proof.
  unfold computeEstimatedSize. enough (H : forall z, fold_left (fun z (l : link) => z + linkSize (lname l) (lto l)) ls z = z + linksSize ls) by apply H.
  induction ls as [|l ls IH]; intros z; cbn [fold_left]; [unfold linksSize; cbn; lia|]. rewrite IH, linksSize_cons. lia.
Qed.
Lemma entry_sizes ls : sumZ (map entry_size (map named ls)) = linksSize ls.
Proof. induction ls as [|l ls IH]; [reflexivity|]. cbn [map]. rewrite linksSize_cons, <- IH. reflexivity. Qed.

(** *** Names *)
Definition names (ls : list link) : list bytes := map lname ls.
Lemma named_names ls : map fst (map named ls) = names ls.
Proof. rewrite map_map. reflexivity. Qed.
Lemma get_some k ls l : GetNodeLink k ls = Some l -> In l ls /\ lname l = k.
Proof. intros H. apply find_some in H as [H1 H2]. split; [assumption|]. now apply bytes_eqb_eq in H2. Qed.
Lemma get_none k ls : GetNodeLink k ls = None -> ~ In k (names ls).
Proof. intros H Hi. apply in_map_iff in Hi as (l & E & Hl). apply (find_none _ _ H) in Hl. cbn in Hl. rewrite E, bytes_eqb_refl in Hl. discriminate. Qed.
Lemma remove_names k ls x : In x (names (RemoveNodeLink k ls)) <-> In x (names ls) /\ x <> k.
Proof.
  unfold names, RemoveNodeLink. rewrite !in_map_iff. split.
  - intros (l & <- & Hl). apply filter_In in Hl as [Hl E]. split; [eauto|]. intros E'. rewrite E', bytes_eqb_refl in E. discriminate.
  - intros [(l & <- & Hl) E]. exists l. split; [reflexivity|]. apply filter_In. split; [assumption|]. destruct (bytes_eqb (lname l) k) eqn:B; [apply bytes_eqb_eq in B; contradiction|reflexivity].
Qed.
Lemma remove_nodup k ls : NoDup (names ls) -> NoDup (names (RemoveNodeLink k ls)).
Proof.
  induction ls as [|l ls IH]; [auto|]. cbn [names map] in *. intros H. inversion H as [|? ? H1 H2]; subst. unfold RemoveNodeLink. cbn [filter]. destruct (negb _); [|now apply IH].
  cbn [names map]. constructor; [|now apply IH]. intros Hi. apply H1. now apply remove_names in Hi.
Qed.
Lemma remove_absent k ls : ~ In k (names ls) -> RemoveNodeLink k ls = ls.
Proof.
  induction ls as [|l ls IH]; [auto|]. cbn [names map In]. intros H. unfold RemoveNodeLink in *. cbn [filter]. destruct (bytes_eqb (lname l) k) eqn:B; [apply bytes_eqb_eq in B; tauto|]. cbn [negb]. f_equal. apply IH. tauto.
Qed.
Lemma remove_size k ls l : NoDup (names ls) -> GetNodeLink k ls = Some l -> linksSize (RemoveNodeLink k ls) = linksSize ls - linkSize (lname l) (lto l).
Proof.
  induction ls as [|x ls IH]; [discriminate|]. cbn [names map]. intros H E. inversion H as [|? ? H1 H2]; subst. unfold GetNodeLink in E. cbn [find] in E. unfold RemoveNodeLink. cbn [filter]. rewrite linksSize_cons.
  destruct (bytes_eqb (lname x) k) eqn:B; cbn [negb].
  - injection E as <-. apply bytes_eqb_eq in B. fold (RemoveNodeLink k ls). rewrite remove_absent by now rewrite <- B. lia.
  - rewrite linksSize_cons. fold (RemoveNodeLink k ls). rewrite (IH H2 E). lia.
Qed.

(** *** Contents *)
Definition is_dir_data (b : bytes) : Prop := exists fsn, FSNodeFromBytes b = Ok fsn /\ getType fsn = TDirectory.
(** The basic directory has the contents [d]. *)
Record bgood (P : prefix -> Prop) (D : bytes) (d : dir) (b : basic) : Prop := mkBgood {
  bg_prefix : P (b_prefix b);
  bg_data : b_data b = D;
  bg_list : listing d (map named (b_links b));
  bg_est : b_est b = linksSize (b_links b) }.

Lemma listing_deq d d' es : deq d d' -> listing d es -> listing d' es.
Proof. intros E [H1 H2]. split; [assumption|]. intros k e. rewrite <- E. apply H2. Qed.
Lemma bgood_deq P D d d' b : deq d d' -> bgood P D d b -> bgood P D d' b.
Proof. intros E [H1 H2 H3 H4]. constructor; auto. eapply listing_deq; eauto. Qed.
Lemma listing_nodup d ls : listing d (map named ls) -> NoDup (names ls).
Proof. intros [H _]. now rewrite named_names in H. Qed.
Lemma listing_in d ls l : listing d (map named ls) -> In l ls -> d (lname l) = Some (lentry l).
Proof. intros [_ H] Hl. apply H. change (lname l, lentry l) with (named l). now apply in_map. Qed.
Lemma listing_names d ls k : listing d (map named ls) -> In k (names ls) <-> d k <> None.
Proof.
  intros [_ H]. split.
  - intros Hi. apply in_map_iff in Hi as (l & <- & Hl). rewrite (proj1 (H (lname l) (lentry l))); [discriminate|]. change (lname l, lentry l) with (named l). now apply in_map.
  - destruct (d k) as [e|] eqn:E; [intros _|congruence]. apply H in E. apply in_map_iff in E as (l & E & Hl). injection E as <- _. now apply in_map.
Qed.
Lemma get_spec d ls k : listing d (map named ls) -> match GetNodeLink k ls with Some l => lname l = k /\ d k = Some (lentry l) | None => d k = None end.
Proof.
  intros H. destruct (GetNodeLink k ls) as [l|] eqn:E.
  - apply get_some in E as [E <-]. split; [reflexivity|]. now apply listing_in with (ls := ls).
  - apply get_none in E. destruct (d k) eqn:Ed; [|reflexivity]. exfalso. apply E. apply (listing_names d); [assumption|congruence].
Qed.
Lemma named_remove k ls : map named (RemoveNodeLink k ls) = filter (fun e => negb (bytes_eqb (fst e) k)) (map named ls).
Proof. induction ls as [|l ls IH]; [reflexivity|]. unfold RemoveNodeLink in *. cbn [filter map named fst]. destruct (bytes_eqb (lname l) k); cbn [negb map]; [assumption|]. now f_equal. Qed.
Lemma listing_remove d ls k : listing d (map named ls) -> listing (dput d k None) (map named (RemoveNodeLink k ls)).
Proof.
  intros H. split; [rewrite named_names; apply remove_nodup; eapply listing_nodup; eauto|]. destruct H as [_ H]. intros x e. rewrite named_remove, filter_In. cbn [fst]. rewrite H. unfold dput.
  destruct (bytes_eqb x k); cbn [negb]; split; [intros [_ ?]; discriminate|discriminate|tauto|tauto].
Qed.
Lemma listing_add d ls k v : listing d (map named ls) -> d k = None -> listing (dput d k (Some v)) (map named (ls ++ [mkLink k (fst v) (snd v)])).
Proof.
  intros H E. pose proof (listing_nodup _ _ H) as N. rewrite map_app. cbn [map named]. split.
  - rewrite map_app, named_names. cbn [map fst]. apply (Permutation_NoDup (l := k :: names ls)); [apply Permutation_cons_append|]. constructor; [|assumption]. rewrite (listing_names d ls k H). congruence.
  - destruct H as [_ H]. intros x e. rewrite in_app_iff, H. cbn [In]. unfold named, lentry. cbn [lname lsize lto]. unfold dput. destruct (bytes_eqb x k) eqn:B.
    + apply bytes_eqb_eq in B. subst x. rewrite E. split; [intros [?|[Eq|[]]]; [discriminate|]; injection Eq as <-; now destruct v|]. intros Eq. injection Eq as <-. right. left. now destruct v.
    + split; [intros [?|[Eq|[]]]; [assumption|]|now left]. injection Eq as -> _. rewrite bytes_eqb_refl in B. discriminate.
Qed.

(** *** Operations *)
Lemma bRemoveChild_spec P D d b k : bgood P D d b ->
  match d k with
  | None => bRemoveChild k b = (Err ENotExist, b)
  | Some _ => exists b', bRemoveChild k b = (Ok tt, b') /\ bgood P D (dput d k None) b'
  end.
Proof.
  intros [H1 H2 H3 H4]. pose proof (get_spec d (b_links b) k H3) as G. unfold bRemoveChild. destruct (GetNodeLink k (b_links b)) as [l|] eqn:E; [|now rewrite G]. destruct G as [Gk G]. rewrite G.
  eexists. split; [reflexivity|]. pose proof (remove_size k _ l (listing_nodup _ _ H3) E) as S. pose proof (linksSize_nonneg (RemoveNodeLink k (b_links b))).
  unfold removeFromEstimatedSize, b_set_links. cbn [b_prefix b_data b_links b_est]. constructor; cbn [b_prefix b_data b_links b_est]; auto.
  - now apply listing_remove.
  - destruct (_ <? 0) eqn:Z; lia.
Qed.
Lemma dput_deq d k v v' : deq (dput (dput d k v) k v') (dput d k v').
Proof. intros x. unfold dput. now destruct (bytes_eqb x k). Qed.
Lemma dput_absent d k : d k = None -> deq (dput d k None) d.
Proof. intros H x. unfold dput. destruct (bytes_eqb x k) eqn:B; [|reflexivity]. apply bytes_eqb_eq in B. now subst. Qed.
Lemma addLinkChild_spec P D d b k l : bgood P D d b -> exists b', addLinkChild k l b = (Ok tt, b') /\ bgood P D (dput d k (Some (lentry l))) b'.
Proof.
  intros H. pose proof (bRemoveChild_spec P D d b k H) as R. unfold addLinkChild.
  assert (H' : exists b1 r, bRemoveChild k b = (r, b1) /\ (r = Ok tt \/ r = Err ENotExist) /\ bgood P D (dput d k None) b1).
  { destruct (d k) eqn:E; [destruct R as (b' & -> & R); exists b', (Ok tt); auto|]. exists b, (Err ENotExist). split; [assumption|]. split; [auto|]. eapply bgood_deq; [|exact H]. intros x. symmetry. now apply dput_absent. }
  destruct H' as (b1 & r & -> & Hr & [B1 B2 B3 B4]). exists (addToEstimatedSize k (lto l) (b_set_links (AddRawLink k l (b_links b1)) b1)). split; [destruct Hr as [-> | ->]; reflexivity|].
  apply (bgood_deq P D (dput (dput d k None) k (Some (lentry l)))); [apply dput_deq|]. constructor; unfold addToEstimatedSize, b_set_links; cbn [b_prefix b_data b_links b_est]; auto.
  - unfold AddRawLink. apply listing_add; [assumption|apply dput_same].
  - unfold AddRawLink. rewrite linksSize_app, B4. unfold linksSize, sumZ. cbn. lia.
Qed.
Lemma bAddChild_spec P D d b k n : bgood P D d b -> exists b', bAddChild k n b = (Ok tt, b') /\ bgood P D (dput d k (Some (node_entry n))) b'.
Proof. intros H. exact (addLinkChild_spec P D d b k (make_link [] n) H). Qed.
Lemma bFind_spec P D d b k w : bgood P D d b -> bFind w k b = match d k with None => Err ENotExist | Some e => dserv_get w (snd e) end.
Proof. intros [_ _ H _]. pose proof (get_spec d (b_links b) k H) as G. unfold bFind. destruct (GetNodeLink k (b_links b)); [destruct G as [_ ->]; reflexivity|now rewrite G]. Qed.

(** Adding several entries. *)
Definition puts (ls : list link) (d : dir) : dir := fold_left (fun d l => dput d (lname l) (Some (lentry l))) ls d.
Lemma addLinks_spec P D ls : forall d b, bgood P D d b -> exists b', addLinks ls b = (Ok tt, b') /\ bgood P D (puts ls d) b'.
Proof.
  induction ls as [|l ls IH]; intros d b H; [exists b; split; [reflexivity|assumption]|]. cbn [addLinks]. unfold bind. destruct (addLinkChild_spec P D d b (lname l) l H) as (b1 & -> & H1). apply (IH _ _ H1).
Qed.
Lemma puts_spec ls : forall d k, NoDup (names ls) -> (forall l, In l ls -> lname l = k -> puts ls d k = Some (lentry l)) /\ (~ In k (names ls) -> puts ls d k = d k).
Proof.
  induction ls as [|l ls IH]; intros d k N; [split; [intros l []|reflexivity]|]. cbn [names map] in N. inversion N as [|? ? N1 N2]; subst. change (puts (l :: ls) d) with (puts ls (dput d (lname l) (Some (lentry l)))).
  destruct (IH (dput d (lname l) (Some (lentry l))) k N2) as [I1 I2]. split.
  - intros x [<-|Hx] <-; [rewrite I2 by assumption; apply dput_same|]. now apply I1.
  - cbn [names map In]. intros H. rewrite I2 by tauto. apply dput_other. intros ->. tauto.
Qed.
Lemma puts_listing d ls : listing d (map named ls) -> deq (puts ls dempty) d.
Proof.
  intros H k. destruct (puts_spec ls dempty k (listing_nodup _ _ H)) as [P1 P2]. destruct (d k) as [e|] eqn:E.
  - apply (proj2 H) in E. apply in_map_iff in E as (l & E & Hl). injection E as <- <-. now apply P1.
  - rewrite P2; [reflexivity|]. rewrite (listing_names d ls k H). congruence.
Qed.

Lemma perm_listing d a b : listing d a -> listing d b -> Permutation a b.
Proof.
  intros [N1 H1] [N2 H2]. apply NoDup_Permutation; [eapply NoDup_map_inv; eauto|eapply NoDup_map_inv; eauto|]. intros [k e]. now rewrite H1, H2.
Qed.
Lemma sumZ_perm a b : Permutation a b -> sumZ a = sumZ b.
Proof. unfold sumZ. induction 1; cbn; lia. Qed.
Lemma size_unique d a b : has_size d a -> has_size d b -> a = b.
Proof. intros (l & Hl & ->) (m & Hm & ->). apply sumZ_perm. apply Permutation_map. eapply perm_listing; eauto. Qed.
Lemma bgood_size P D d b : bgood P D d b -> has_size d (b_est b).
Proof. intros [_ _ H ->]. exists (map named (b_links b)). split; [assumption|]. symmetry. apply entry_sizes. Qed.
Lemma bgood_size_eq P D d b z : bgood P D d b -> has_size d z -> z = b_est b.
Proof. intros H Hz. eapply size_unique; eauto. now apply bgood_size with (P := P) (D := D). Qed.

(** Saving and loading. *)
Lemma linsert_perm {T} (x : plink T) ls : Permutation (linsert x ls) (x :: ls).
Proof. induction ls as [|y ls IH]; [reflexivity|]. cbn [linsert]. destruct (name_ltb _ _); [|reflexivity]. rewrite IH. apply perm_swap. Qed.
Lemma lsort_perm {T} (ls : list (plink T)) : Permutation (lsort ls) ls.
Proof. induction ls as [|x ls IH]; [reflexivity|]. cbn [lsort]. rewrite linsert_perm. now constructor. Qed.
Lemma lsort_listing d ls : listing d (map named ls) -> listing d (map named (lsort ls)).
Proof.
  intros H. assert (Pm : Permutation (lsort ls) ls) by apply lsort_perm. split.
  - rewrite named_names. eapply Permutation_NoDup; [|exact (listing_nodup _ _ H)]. apply Permutation_map. now symmetry.
  - intros k e. rewrite <- (proj2 H). split; intros Hi; eapply Permutation_in; try exact Hi; apply Permutation_map; [assumption|now symmetry].
Qed.

Definition name_sorted (ls : list link) : Prop := StronglySorted (fun a b : link => name_lt (lname a) (lname b)) ls.
Lemma b2z_inj x y : b2z x = b2z y -> x = y.
Proof. intros H. rewrite <- (z2b_b2z x), <- (z2b_b2z y). now rewrite H. Qed.
Lemma name_lt_total a : forall b, name_lt a b \/ a = b \/ name_lt b a.
Proof.
  induction a as [|x a IH]; intros [|y b]; [auto|left; constructor|right; right; constructor|]. destruct (Z.lt_trichotomy (b2z x) (b2z y)) as [H|[H|H]]; [left; now apply nl_here| |right; right; now apply nl_here].
  apply b2z_inj in H. subst y. destruct (IH b) as [H|[->|H]]; [left; now apply nl_later|auto|right; right; now apply nl_later].
Qed.
Lemma name_lt_trans a b c : name_lt a b -> name_lt b c -> name_lt a c.
Proof.
  intros H. revert c. induction H as [x b|x y a b H|x a b H IH]; intros c Hc; inversion Hc; subst; try (now constructor); try (apply nl_here; lia). apply nl_later. auto.
Qed.
Lemma linsert_sorted (l : link) ls : name_sorted ls -> ~ In (lname l) (names ls) -> name_sorted (linsert l ls).
Proof.
  induction 1 as [|m r Hs IH HF]; intros Hn; cbn [linsert]; [repeat constructor|]. cbn [names map In] in Hn. destruct (name_ltb (lname m) (lname l)) eqn:E.
  - apply name_ltb_spec in E. constructor; [apply IH; tauto|]. apply Forall_forall. intros x Hx. apply (Permutation_in _ (linsert_perm l r)) in Hx as [<-|Hx]; [assumption|]. rewrite Forall_forall in HF. now apply HF.
  - assert (name_lt (lname l) (lname m)). { destruct (name_lt_total (lname l) (lname m)) as [H|[H|H]]; [assumption|exfalso; apply Hn; left; now symmetry|]. apply name_ltb_spec in H. congruence. }
    constructor; [now constructor|]. constructor; [assumption|]. eapply Forall_impl; [|exact HF]. cbn. intros x Hx. eapply name_lt_trans; eauto.
Qed.
Lemma lsort_name_sorted ls : NoDup (names ls) -> name_sorted (lsort ls).
Proof.
  induction ls as [|l ls IH]; [constructor|]. cbn [names map lsort]. intros H. inversion H as [|? ? H1 H2]; subst. apply linsert_sorted; [now apply IH|]. intros Hi. apply H1. eapply Permutation_in; [|exact Hi]. apply Permutation_map, lsort_perm.
Qed.
Lemma name_sorted_unique a : forall b, name_sorted a -> name_sorted b -> Permutation a b -> a = b.
Proof.
  induction a as [|x a IH]; intros b Ha Hb Hp; [apply Permutation_nil in Hp; now subst|]. destruct b as [|y b]; [symmetry in Hp; apply Permutation_nil in Hp; discriminate|].
  inversion Ha as [|? ? A1 A2]; subst. inversion Hb as [|? ? B1 B2]; subst. rewrite Forall_forall in A2, B2.
  assert (x = y). { assert (Hx : In x (y :: b)) by (eapply Permutation_in; [exact Hp|now left]). assert (Hy : In y (x :: a)) by (eapply Permutation_in; [symmetry; exact Hp|now left]).
    destruct Hx as [->|Hx]; [reflexivity|]. destruct Hy as [->|Hy]; [reflexivity|]. apply B2 in Hx. apply A2 in Hy. exfalso. exact (name_lt_irrefl _ (name_lt_trans _ _ _ Hx Hy)). }
  subst y. f_equal. apply IH; auto. eapply Permutation_cons_inv. exact Hp.
Qed.
(** The links of a saved basic directory are determined by its contents. *)
Lemma lsort_canonical d a b : listing d (map named a) -> listing d (map named b) -> lsort a = lsort b.
Proof.
  intros Ha Hb. apply name_sorted_unique; [apply lsort_name_sorted; eapply listing_nodup; eauto|apply lsort_name_sorted; eapply listing_nodup; eauto|].
  rewrite !lsort_perm. assert (H : Permutation (map named a) (map named b)) by (eapply perm_listing; eauto).
  apply (Permutation_map plain) in H. rewrite !map_map in H. erewrite (map_ext _ (fun x => x)), (map_ext (fun x => plain (named x)) (fun x => x)) in H; [now rewrite !map_id in H| |]; now intros [? ? ?].
Qed.
