(** The dynamic directory as a map, and its choice of representation. *)
From Verif Require Import Base Pb PbProofs FSNode FSNodeProofs Dag DagProofs Builder HashBits Bitfield SpecHash HashProofs Hamt SpecHamt HamtExec HamtRep HamtNode HamtRun HamtFacts Walk WalkProofs WalkDir HamtAbs Directory SpecDir DirExec DirBasic.
From Coq Require Import Permutation.

(** *** Sizes *)
Lemma named_plain_id es : map named (map plain es) = es.
Proof. apply named_plain. Qed.
Lemma listing_plain d es : listing d es -> listing d (map named (map plain es)).
Proof. now rewrite named_plain_id. Qed.
Lemma has_size_links d z : has_size d z -> exists ls, listing d (map named ls) /\ z = linksSize ls.
Proof. intros (l & Hl & ->). exists (map plain l). split; [now apply listing_plain|]. now rewrite <- entry_sizes, named_plain_id. Qed.
Lemma links_has_size d ls : listing d (map named ls) -> has_size d (linksSize ls).
Proof. intros H. exists (map named ls). split; [assumption|]. symmetry. apply entry_sizes. Qed.
Lemma has_size_deq d d' z : deq d d' -> has_size d z -> has_size d' z.
Proof. intros E (l & Hl & ->). exists l. split; [eapply listing_deq; eauto|reflexivity]. Qed.
Definition osize (k : bytes) (v : option dentry) : Z := match v with Some e => entry_size (k, e) | None => 0 end.
Lemma has_size_put d z k v : has_size d z -> has_size (dput d k v) (z + (osize k v - osize k (d k))).
Proof.
  intros H. apply has_size_links in H as (ls & H & ->). pose proof (get_spec d ls k H) as G. pose proof (listing_remove d ls k H) as R.
  assert (E : linksSize (RemoveNodeLink k ls) = linksSize ls - osize k (d k)).
  { destruct (GetNodeLink k ls) as [l|] eqn:E; [|rewrite G; cbn [osize]; rewrite remove_absent by (now apply get_none); lia].
    destruct G as [G1 G2]. rewrite (remove_size k ls l (listing_nodup _ _ H) E), G2, G1. reflexivity. }
  destruct v as [v|].
  - apply (has_size_deq (dput (dput d k None) k (Some v))); [apply dput_deq|]. pose proof (listing_add _ _ k v R (dput_same _ _ _)) as A. apply links_has_size in A.
    rewrite linksSize_app, E in A. unfold linksSize at 2 in A. cbn [map sumZ fold_right lname lto] in A. unfold osize at 1, entry_size. unfold linkSize in A. cbn [fst snd].
    replace (linksSize ls + _) with (linksSize ls - osize k (d k) + (zlen k + cid_len (node_prefix (snd v)) + 0)) by lia. exact A.
  - apply links_has_size in R. rewrite E in R. cbn [osize]. replace (linksSize ls + _) with (linksSize ls - osize k (d k)) by lia. exact R.
Qed.
Lemma sub_size (a : list link) : forall b, NoDup (names a) -> (forall l, In l a -> In l b) -> linksSize a <= linksSize b.
Proof.
  induction a as [|x a IH]; intros b N H; [apply linksSize_nonneg|]. cbn [names map] in N. inversion N as [|? ? N1 N2]; subst. destruct (in_split x b) as (b1 & b2 & ->); [apply H; now left|].
  assert (linksSize a <= linksSize (b1 ++ b2)). { apply IH; [assumption|]. intros l Hl. assert (In l (b1 ++ x :: b2)) as Hi by (apply H; now right). apply in_app_iff in Hi as [Hi|[<-|Hi]]; [apply in_app_iff; now left| |apply in_app_iff; now right].
    exfalso. apply N1. now apply in_map. }
  rewrite linksSize_app in *. rewrite !linksSize_cons. lia.
Qed.

(** *** Enumerations end *)
Lemma walk_ends w m root t : (0 < m)%nat -> wsteps w false (walk_start m root) t -> (forall u, wsteps w false (walk_start m root) u -> ~ walk_crashed u) ->
  exists u, wsteps w false (walk_start m root) u /\ walk_over u.
Proof.
  intros Hm Ht Hc. remember (weight t) as k eqn:Ek. revert t Ht Ek. induction k as [k IH] using (well_founded_induction lt_wf). intros t Ht ->.
  destruct (walk_progress w false m root t Hm Ht) as [O|[C|[u Hu]]]; [eauto|exfalso; exact (Hc t Ht C)|]. apply (IH (weight u)) with (t := u); [now apply step_weight in Hu|eapply wsteps_step; eauto|reflexivity].
Qed.

Lemma crowded_mono hash us d d' : (forall k, d k <> None -> d' k <> None) -> crowded hash us d -> crowded hash us d'.
Proof. intros H (k & k' & H1 & H2 & H3 & H4). exists k, k'. auto. Qed.
Lemma too_deep_crowded hash us d k v : too_deep hash us d k -> crowded hash us (dput d k (Some v)).
Proof. intros (E & k' & H1 & H2 & H3). exists k, k'. split; [congruence|]. split; [rewrite dput_same; discriminate|]. split; [now rewrite dput_other|assumption]. Qed.
Lemma puts_some ls : forall d k, d k <> None -> puts ls d k <> None.
Proof. induction ls as [|l ls IH]; intros d k H; [assumption|]. apply IH. unfold dput. now destruct (bytes_eqb k (lname l)). Qed.

Lemma feed_none cb es : (forall acc l, cb acc l = None) -> forall acc, feed cb acc es = (None, rev (map plain es) ++ acc).
Proof. intros H. induction es as [|e es IH]; intros acc; [reflexivity|]. cbn [feed map rev]. rewrite H, IH, <- app_assoc. reflexivity. Qed.
Lemma addLinkChild_ok k l b : fst (addLinkChild k l b) = Ok tt.
Proof. unfold addLinkChild, bRemoveChild. destruct (GetNodeLink k (b_links b)); reflexivity. Qed.
Lemma added_no_fail w w' : all_added w w' -> ~ add_failed w w'.
Proof. intros H (m & Hm & E). rewrite (H m Hm) in E. discriminate. Qed.
Lemma same_no_fail w : ~ add_failed w w.
Proof. apply added_no_fail, all_added_refl. Qed.
Lemma bForEach_all ls : forall acc, bForEachLink (fun _ _ => None) acc ls = (Ok tt, rev ls ++ acc).
Proof. induction ls as [|l ls IH]; intros acc; [reflexivity|]. cbn [bForEachLink rev]. rewrite IH, <- app_assoc. reflexivity. Qed.
Lemma add_spec nd w : exists r w', dserv_add nd None w = (r, w') /\ wext w w' /\ (r = Ok tt /\ all_added w w' \/ r = Err EAdd /\ add_failed w w').
Proof.
  destruct (dserv_add_spec nd None w) as (ra & w1 & Ea & Xa & Ca & Ha). exists ra, w1. split; [assumption|]. split; [assumption|]. destruct Ha as [(-> & _ & Fa)|[-> Fa]]; [left; split; [reflexivity|now apply all_added_one]|].
  right. split; [reflexivity|]. exists (w_calls w). split; [lia|assumption].
Qed.
Lemma sizeBelow_spec w mayc T s change r d z : facts d s w -> has_size d z -> sizeBelowThreshold w mayc T s change r ->
  match r with
  | Ok true => T <> 0 /\ (mayc = false -> (exists k, d k <> None) -> z + change < T)
  | Ok false => T <> 0 /\ T <= z + change
  | Err e => mayc = false -> e = EFetch /\ fails w
  | Panic => T = 0
  | Fuel => False
  end.
Proof.
  intros HF Hz H. destruct H as [HT|t a l b HT Hw Ho Hb Ha|t links HT Hw He Hb|t links e HT Hw He Hb|t HT Hw Hc].
  - assumption.
  - split; [assumption|]. apply has_size_links in Hz as (ls & Hl & ->). destruct (facts_sound s w d mayc 32 t HF Hw) as [N I]. enough (linksSize (a ++ [l]) <= linksSize ls) by lia.
    assert (linksSize (a ++ [l]) <= linksSize (w_out t)). { rewrite Ho, !linksSize_app, !linksSize_cons. pose proof (linksSize_nonneg b). change (linksSize []) with 0. lia. }
    assert (linksSize (w_out t) <= linksSize ls); [|lia]. apply sub_size; [exact N|]. intros x Hx. specialize (I x Hx). apply (proj2 Hl) in I. apply in_map_iff in I as (y & E & Hy). replace x with y; [assumption|].
    destruct x, y. unfold named, lentry in E. cbn in E. congruence.
  - split; [assumption|]. intros -> [k Hk]. pose proof (facts_complete s w d 32 t links HF Hw He) as L. rewrite (size_unique d z (linksSize links) Hz (links_has_size _ _ L)). apply (Hb links []); [now rewrite app_nil_r|].
    intros ->. cbn in L. destruct (d k) as [e|] eqn:E; [|congruence]. now apply (proj2 L) in E.
  - intros ->. exact (facts_errors s w d 32 t links e HF Hw He).
  - exfalso. exact (facts_no_crash s w d mayc 32 t HF Hw Hc).
Qed.
Lemma basic_reload P D d b : is_dir_data D -> bgood P D d b -> exists b', NewDirectoryFromNode (seal (NProto (b_prefix b) (b_data b) (b_links b))) = Ok (DBasic b') /\ bgood P D d b'.
Proof.
  intros (fsn & B2 & B3) [B1 E B4 B5]. cbn [seal NewDirectoryFromNode]. rewrite E, B2. cbn [rbind]. rewrite B3. change (TDirectory =? TDirectory) with true. cbn. eexists. split; [reflexivity|].
  constructor; unfold newBasicDirectoryFromNode; cbn [b_prefix b_data b_links b_est]; [assumption|reflexivity|now apply lsort_listing|apply estimate].
Qed.
Lemma folder_is_dir D : FolderPBData = Ok D -> is_dir_data D.
Proof. intros E. destruct FolderPBData_decode as (data & E' & H). rewrite E in E'. injection E' as <-. eexists. unfold FSNodeFromBytes. rewrite H. split; reflexivity. Qed.

Section Dyn.
  Variables (hash : bytes -> bytes) (n : nat) (W : Z) (P : prefix -> Prop).
  Hypothesis Hn : (2 <= n)%nat.
  Hypothesis Hh : forall k, length (hash k) = n.
  Hypothesis HP : forall p, P p -> p = proto_prefix (Some p).
  Hypothesis Hv : valid_width W.
  Variable D : bytes.
  Hypothesis HD : FolderPBData = Ok D.
  Notation good := (good hash n W P).
  Notation us := (usable n W).

  (** The dynamic directory has the contents [d]. *)
  Definition dgood (d : dir) (st : directory * world) : Prop :=
    d [] = None /\ match fst st with DBasic b => bgood P D d b | DHamt h => good d (h_shard h) (snd st) end.

  Lemma setLinks_spec w ls : forall d s, good d s w -> Forall (fun l => lname l <> []) ls ->
    let (r, s') := setLinks hash w ls s in
    match r with
    | Ok _ => good (puts ls d) s' w
    | Err e => e = ETooDeep /\ crowded hash us (puts ls d) \/ e = EFetch /\ fails w
    | _ => False
    end.
  Proof.
    induction ls as [|l ls IH]; intros d s Hg HF; [exact Hg|]. inversion HF as [|? ? F1 F2]; subst. cbn [setLinks]. unfold bind. pose proof (good_setlink hash n W P Hn Hh HP d s w (lname l) l Hg F1) as S. destruct (SetLink _ _ _ _ _) as [r s1].
    destruct r as [u|e| |]; try contradiction.
    - apply (IH _ _ S F2).
    - destruct S as [_ [[-> S]|S]]; [|now right]. left. split; [reflexivity|]. eapply crowded_mono; [|apply too_deep_crowded with (v := lentry l); exact S]. intros k Hk. exact (puts_some ls _ k Hk).
  Qed.
  Lemma shard_exists p : exists s, new_dir W (Some p) = Ok s.
  Proof.
    destruct (proj1 (NewShard_width W) Hv) as (s & E & _). exists (SetCidBuilder (Some p) s). unfold new_dir. now rewrite E.
  Qed.
  Lemma switchToSharding_spec w d b : bgood P D d b -> d [] = None ->
    match switchToSharding hash W w b with
    | Ok h => good d (h_shard h) w /\ h_change h = 0
    | Err e => e = ETooDeep /\ crowded hash us d \/ e = EFetch /\ fails w
    | _ => False
    end.
  Proof.
    intros [B1 B2 B3 B4] H0. unfold switchToSharding. destruct (shard_exists (b_prefix b)) as (s & Es). rewrite Es. cbn [rbind].
    assert (HF : Forall (fun l => lname l <> []) (b_links b)). { apply Forall_forall. intros l Hl E. pose proof (listing_in _ _ _ B3 Hl) as X. rewrite E in X. congruence. }
    pose proof (setLinks_spec w (b_links b) dempty s (good_new hash n W P Hn Hh (Some (b_prefix b)) s w Hv (eq_ind _ P B1 _ (HP _ B1)) Es) HF) as S. destruct (setLinks _ _ _ _) as [r s1].
    pose proof (puts_listing _ _ B3) as E. destruct r as [u|e| |]; try contradiction; cbn [h_shard h_change].
    - split; [|reflexivity]. eapply good_deq; eauto.
    - destruct S as [[-> S]|S]; [|now right]. left. split; [reflexivity|]. eapply crowded_mono; [|exact S]. intros k Hk. now rewrite <- E.
  Qed.

  Lemma empty_basic : exists b, newEmptyBasicDirectory = Ok b /\ forall (Q : prefix -> Prop) bu, Q (proto_prefix bu) -> bgood Q D dempty (bSetCidBuilder bu b).
  Proof.
    unfold newEmptyBasicDirectory. rewrite HD. cbn [rmap]. eexists. split; [reflexivity|]. intros Q bu HQ. constructor; cbn; [exact HQ|reflexivity|split; [apply NoDup_nil|intros k e; split; [intros []|discriminate]]|reflexivity].
  Qed.
  Lemma switchToBasic_spec w d h : good d (h_shard h) w ->
    let (r, h') := switchToBasic w h in
    good d (h_shard h') w /\ h_change h' = h_change h /\
    match r with Ok b => bgood P D d b | Err e => e = EFetch /\ fails w | _ => False end.
  Proof.
    intros Hg. unfold switchToBasic. destruct empty_basic as (b & -> & Hb). specialize (Hb P (s_builder (h_shard h)) (good_builder _ _ _ _ _ _ _ Hg)).
    destruct (good_each hash n W P Hh HP d (h_shard h) w (switch_cb (bSetCidBuilder (s_builder (h_shard h)) b)) Hg) as (es & Hl & S).
    destruct (ForEachLink _ _ _) as [r [s acc]]. destruct S as [S1 S2].
    assert (Hcb : forall acc l, switch_cb (bSetCidBuilder (s_builder (h_shard h)) b) acc l = None).
    { intros a l. unfold switch_cb. pose proof (addLinkChild_ok (lname l) l (snd (addLinks (rev a) (bSetCidBuilder (s_builder (h_shard h)) b)))) as E. destruct (addLinkChild _ _ _) as [x y]. cbn [fst] in E. now subst x. }
    rewrite (feed_none _ _ Hcb), app_nil_r in S2. destruct r as [u|e| |]; try contradiction; cbn [h_shard h_change]; (split; [assumption|]); (split; [reflexivity|]).
    - injection S2 as <-. rewrite rev_involutive. destruct (addLinks_spec P D (map plain es) dempty _ Hb) as (b' & -> & H). cbn [snd]. eapply bgood_deq; [|exact H]. apply puts_listing. now apply listing_plain.
    - destruct S2 as [S2|(E & F & _)]; [discriminate|]. auto.
  Qed.

  Lemma good_size d s w : good d s w -> exists z, has_size d z.
  Proof. intros Hg. destruct (good_facts hash n W P Hh HP _ _ _ Hg) as (es & Hl & _). eexists. exists es. split; [exact Hl|reflexivity]. Qed.


  (** The directory after an operation of the size check. *)
  Definition after (d : dir) (k : bytes) (nd : option node) : dir := dput d k (option_map node_entry nd).
  Lemma newSize_osize k nd : newSize k nd = osize k (option_map node_entry nd).
  Proof. now destruct nd. Qed.

  Lemma needsBasic_spec w mayc T k nd h r h' d : good d (h_shard h) w -> k <> [] -> needsToSwitchToBasicDir hash w mayc T k nd h r h' ->
    good d (h_shard h') w /\ h_change h' = h_change h /\
    match r with
    | Ok true => T <> 0 /\ h_change h + (newSize k nd - osize k (d k)) < 0 /\ (mayc = false -> (exists x, d x <> None) -> forall z, has_size (after d k nd) z -> z < T)
    | Ok false => T = 0 \/ 0 <= h_change h + (newSize k nd - osize k (d k)) \/ forall z, has_size (after d k nd) z -> T <= z
    | Err e => mayc = false -> e = EFetch /\ fails w
    | _ => False
    end.
  Proof using hash n W P Hn Hh HP.
    intros Hg Hk. unfold needsToSwitchToBasicDir. destruct (T =? 0) eqn:ET; [intros [-> ->]; split; [assumption|]; split; [reflexivity|]; left; lia|].
    pose proof (good_find hash n W P Hn Hh HP d (h_shard h) w k Hg Hk) as F. destruct (Find hash w k (h_shard h)) as [rf s]. destruct F as [Hg' F].
    assert (Dec : forall old, old = osize k (d k) ->
      h' = mkHD s (h_change h) /\ (if 0 <=? h_change h + (newSize k nd - old) then r = Ok false else sizeBelowThreshold w mayc T s (newSize k nd - old) r) ->
      good d (h_shard h') w /\ h_change h' = h_change h /\
      match r with
      | Ok true => T <> 0 /\ h_change h + (newSize k nd - osize k (d k)) < 0 /\ (mayc = false -> (exists x, d x <> None) -> forall z, has_size (after d k nd) z -> z < T)
      | Ok false => T = 0 \/ 0 <= h_change h + (newSize k nd - osize k (d k)) \/ forall z, has_size (after d k nd) z -> T <= z
      | Err e => mayc = false -> e = EFetch /\ fails w
      | _ => False
      end).
    { intros old Eo [-> H]. cbn [h_shard h_change]. split; [assumption|]. split; [reflexivity|]. rewrite <- Eo. destruct (0 <=? _) eqn:Ec; [subst r; right; left; lia|].
      destruct (good_size d s w Hg') as [z Hz]. pose proof (sizeBelow_spec _ _ _ _ _ _ _ _ (good_facts hash n W P Hh HP _ _ _ Hg') Hz H) as S.
      assert (Hz' : has_size (after d k nd) (z + (newSize k nd - old))) by (rewrite newSize_osize, Eo; now apply has_size_put).
      destruct r as [[|]|e| |]; try contradiction.
      - split; [lia|]. split; [lia|]. intros Hm He z' Hz''. rewrite (size_unique _ _ _ Hz'' Hz'). now apply S.
      - right. right. intros z' Hz''. rewrite (size_unique _ _ _ Hz'' Hz'). apply S.
      - assumption.
      - lia. }
    destruct rf as [[l|]|e| |]; try contradiction.
    - apply Dec. rewrite F. reflexivity.
    - destruct F as [[-> F]|[-> F]]; [apply Dec; now rewrite F|]. intros [-> ->]. cbn [h_shard h_change]. split; [assumption|]. split; [reflexivity|]. auto.
  Qed.

  Lemma hAdd_spec d h w k nd : good d (h_shard h) w -> k <> [] ->
    let '(r, (h', w')) := hAddChild hash k nd (h, w) in
    wext w w' /\
    match r with
    | Ok _ => all_added w w' /\ good (dput d k (Some (node_entry nd))) (h_shard h') w'
    | Err e => good d (h_shard h') w' /\ (e = EAdd /\ add_failed w w' \/ all_added w w' /\ (e = ETooDeep /\ too_deep hash us d k \/ e = EFetch /\ fails w))
    | _ => False
    end.
  Proof.
    intros Hg Hk. unfold hAddChild. pose proof (good_swap hash n W P Hn Hh HP d (h_shard h) w k nd Hg Hk) as S. destruct (Swap _ _ _ _) as [r [s w']]. destruct S as [S1 S2].
    destruct r as [old|e| |]; try contradiction; cbn [h_shard]; (split; [assumption|]); [|assumption]. split; apply S2.
  Qed.
  Lemma hRemove_spec d h w k : good d (h_shard h) w -> k <> [] ->
    let (r, h') := hRemoveChild hash w k h in
    match r with
    | Ok _ => d k <> None /\ good (dput d k None) (h_shard h') w
    | Err e => good d (h_shard h') w /\ (e = ENotExist /\ d k = None \/ e = EFetch /\ fails w)
    | _ => False
    end.
  Proof.
    intros Hg Hk. unfold hRemoveChild. pose proof (good_take hash n W P Hn Hh HP d (h_shard h) w k Hg Hk) as S. destruct (Take _ _ _ _) as [r s].
    destruct r as [old|e| |]; try contradiction; cbn [h_shard]; [|assumption]. split; apply S.
  Qed.

  Lemma dgood_world d x w w' : dgood d (x, w) -> wext w w' -> dgood d (x, w').
  Proof. intros [H1 H2] Hx. split; [assumption|]. destruct x; cbn [fst snd] in *; [assumption|]. eapply good_world; eauto. Qed.
  Lemma put_nonempty d k v : d [] = None -> k <> [] -> dput d k v [] = None.
  Proof. intros H Hk. rewrite dput_other; auto. Qed.

  Definition proper {A} (r : res A) : Prop := match r with Ok _ | Err _ => True | _ => False end.

  (** Outcome of a mutation that is [op] on the contents [d]. *)
  Notation dallowed := (dallowed unreachable (crowded hash us)).
  Definition step_ok (mayc : bool) (d : dir) (o : dobs) (st' : directory * world) : Prop :=
    wext (q_w o) (q_w' o) /\ proper (q_res o) /\ dgood (deffect d o) st' /\ (mayc = false -> dallowed d o).

  Lemma dAdd_ok mayc T k nd d x w r st' : dgood d (x, w) -> k <> [] -> dAddChild hash W mayc T k nd (x, w) r st' ->
    step_ok mayc d (mkDobs (DAdd k nd) w (snd st') (rmap (fun _ => VUnit) r)) st'.
  Proof.
    intros [H0 Hg] Hk H.
    assert (Hfail : forall e y w', dgood d (y, w') -> wext w w' -> (mayc = false -> e = EFetch /\ fails w \/ e = EAdd /\ add_failed w w' \/ ~ add_failed w w' /\ e = ETooDeep /\ crowded hash us (dput d k (Some (node_entry nd)))) ->
      step_ok mayc d (mkDobs (DAdd k nd) w w' (Err e)) (y, w')).
    { intros e y w' Hy Hx He. split; [assumption|]. split; [exact I|]. split; [exact Hy|]. intros Hm. destruct (He Hm) as [[-> F]|[[-> F]|(F1 & -> & F2)]]; [left; auto|right; left; cbn; auto|]. right. right. cbn. auto. }
    assert (Hdone : forall y w', dgood (dput d k (Some (node_entry nd))) (y, w') -> wext w w' -> ~ add_failed w w' -> step_ok mayc d (mkDobs (DAdd k nd) w w' (Ok VUnit)) (y, w')).
    { intros y w' Hy Hx Hf. split; [assumption|]. split; [exact I|]. split; [exact Hy|]. intros _. right. right. cbn. auto. }
    destruct x as [b|h]; cbn [fst snd] in Hg; cbn [dAddChild] in H.
    - destruct (needsToSwitchToHAMTDir T k (Some nd) b).
      + pose proof (switchToSharding_spec w d b Hg H0) as S. destruct (switchToSharding hash W w b) as [h|e| |]; try contradiction.
        * destruct S as [S _]. pose proof (hAdd_spec d h w k nd S Hk) as A. destruct (hAddChild hash k nd (h, w)) as [ra [h1 w1]]. destruct A as [A1 A2]. destruct ra as [u|e| |]; try contradiction; destruct H as [-> ->]; cbn [rmap snd].
          -- apply Hdone; [split; [now apply put_nonempty|exact (proj2 A2)]|assumption|apply added_no_fail, A2].
          -- apply Hfail; [|assumption|].
             ++ split; [assumption|]. exact Hg.
             ++ intros _. destruct A2 as [_ [A2|[A2 [[-> A3]|A3]]]]; [now right; left| |now left]. right. right. split; [now apply added_no_fail|]. split; [reflexivity|]. now apply too_deep_crowded.
        * destruct H as [-> ->]. cbn [rmap snd]. apply Hfail; [split; assumption|apply wext_refl|]. intros _. destruct S as [[-> S]|S]; [|now left]. right. right. split; [apply same_no_fail|]. split; [reflexivity|].
          eapply crowded_mono; [|exact S]. intros y Hy. unfold dput. now destruct (bytes_eqb y k).
      + destruct (bAddChild_spec P D d b k nd Hg) as (b' & E & Hb). rewrite E in H. destruct H as [-> ->]. cbn [rmap snd]. apply Hdone; [split; [now apply put_nonempty|exact Hb]|apply wext_refl|apply same_no_fail].
    - destruct H as (ra & h1 & Hs & H). destruct (needsBasic_spec w mayc T k (Some nd) h ra h1 d Hg Hk Hs) as (Hg1 & _ & Hr). destruct ra as [[|]|e| |]; try contradiction.
      + destruct H as (rb & h2 & Hd & H). unfold det in Hd. pose proof (switchToBasic_spec w d h1 Hg1) as S. rewrite Hd in S. destruct S as (S1 & _ & S2). destruct rb as [b|e| |]; try contradiction.
        * destruct (bAddChild_spec P D d b k nd S2) as (b' & E & Hb). rewrite E in H. destruct H as [-> ->]. cbn [rmap snd]. apply Hdone; [split; [now apply put_nonempty|exact Hb]|apply wext_refl|apply same_no_fail].
        * destruct H as [-> ->]. cbn [rmap snd]. apply Hfail; [split; assumption|apply wext_refl|auto].
      + pose proof (hAdd_spec d h1 w k nd Hg1 Hk) as A. destruct (hAddChild hash k nd (h1, w)) as [ra [h2 w1]]. destruct A as [A1 A2]. destruct H as [-> ->]. destruct ra as [u|e| |]; try contradiction; cbn [rmap snd].
        * apply Hdone; [split; [now apply put_nonempty|exact (proj2 A2)]|assumption|apply added_no_fail, A2].
        * apply Hfail; [|assumption|].
          -- split; [assumption|]. exact (proj1 A2).
          -- intros _. destruct A2 as [_ [A2|[A2 [[-> A3]|A3]]]]; [now right; left| |now left]. right. right. split; [now apply added_no_fail|]. split; [reflexivity|]. now apply too_deep_crowded.
      + destruct H as [-> ->]. cbn [rmap snd]. apply Hfail; [split; assumption|apply wext_refl|auto].
  Qed.

  Lemma dRemove_ok mayc T k d x w r st' : dgood d (x, w) -> k <> [] -> dRemoveChild hash mayc T k (x, w) r st' ->
    step_ok mayc d (mkDobs (DRemove k) w (snd st') (rmap (fun _ => VUnit) r)) st'.
  Proof.
    intros [H0 Hg] Hk H.
    assert (Hfail : forall e y, dgood d (y, w) -> (mayc = false -> e = EFetch /\ fails w \/ e = ENotExist /\ d k = None) -> step_ok mayc d (mkDobs (DRemove k) w w (Err e)) (y, w)).
    { intros e y Hy He. split; [apply wext_refl|]. split; [exact I|]. split; [exact Hy|]. intros Hm. destruct (He Hm) as [[-> F]|[-> F]]; [left; auto|]. right. right. split; [apply same_no_fail|]. cbn. now rewrite F. }
    assert (Hdone : forall y, dgood (dput d k None) (y, w) -> d k <> None -> step_ok mayc d (mkDobs (DRemove k) w w (Ok VUnit)) (y, w)).
    { intros y Hy Hd. split; [apply wext_refl|]. split; [exact I|]. split; [exact Hy|]. intros _. right. right. split; [apply same_no_fail|]. cbn. now destruct (d k). }
    destruct x as [b|h]; cbn [fst snd] in Hg; cbn [dRemoveChild] in H.
    - pose proof (bRemoveChild_spec P D d b k Hg) as R. destruct (d k) as [e|] eqn:E.
      + destruct R as (b' & R & Hb). rewrite R in H. destruct H as [-> ->]. cbn [rmap snd]. apply Hdone; [|congruence]. split; [now apply put_nonempty|exact Hb].
      + rewrite R in H. destruct H as [-> ->]. cbn [rmap snd]. apply Hfail; [split; assumption|auto].
    - destruct H as (ra & h1 & Hs & H). destruct (needsBasic_spec w mayc T k None h ra h1 d Hg Hk Hs) as (Hg1 & _ & Hr). destruct ra as [[|]|e| |]; try contradiction.
      + destruct H as (rb & h2 & Hd & H). unfold det in Hd. pose proof (switchToBasic_spec w d h1 Hg1) as S. rewrite Hd in S. destruct S as (S1 & _ & S2). destruct rb as [b|e| |]; try contradiction.
        * pose proof (bRemoveChild_spec P D d b k S2) as R. destruct (d k) as [e|] eqn:E.
          -- destruct R as (b' & R & Hb). rewrite R in H. destruct H as [-> ->]. cbn [rmap snd]. apply Hdone; [|congruence]. split; [now apply put_nonempty|exact Hb].
          -- rewrite R in H. destruct H as [-> ->]. cbn [rmap snd]. apply Hfail; [split; assumption|auto].
        * destruct H as [-> ->]. cbn [rmap snd]. apply Hfail; [split; assumption|auto].
      + pose proof (hRemove_spec d h1 w k Hg1 Hk) as A. destruct (hRemoveChild hash w k h1) as [ra h2]. destruct H as [-> ->]. destruct ra as [u|e| |]; try contradiction; cbn [rmap snd].
        * apply Hdone; [|apply A]. split; [now apply put_nonempty|exact (proj2 A)].
        * apply Hfail; [split; [assumption|exact (proj1 A)]|]. intros _. destruct A as [_ [A|A]]; [now right|now left].
      + destruct H as [-> ->]. cbn [rmap snd]. apply Hfail; [split; assumption|auto].
  Qed.

  Lemma quiet_ok mayc d op w x r : dgood d (x, w) -> match op with DAdd _ _ | DRemove _ => False | _ => True end -> proper r ->
    (mayc = false -> dallowed d (mkDobs op w w r)) -> step_ok mayc d (mkDobs op w w r) (x, w).
  Proof. intros H Ho Hp Ha. split; [apply wext_refl|]. split; [exact Hp|]. split; [|exact Ha]. unfold deffect. cbn [q_res q_op]. destruct r, op; tauto. Qed.
  Lemma dFind_ok mayc k d x w : dgood d (x, w) -> k <> [] ->
    let (r, st') := dFind hash k (x, w) in step_ok mayc d (mkDobs (DFind k) w (snd st') (rmap VNode r)) st'.
  Proof.
    intros [H0 Hg] Hk. cbn [dFind]. destruct x as [b|h]; cbn [fst snd] in Hg.
    - cbn [snd]. rewrite (bFind_spec P D d b k w Hg). apply quiet_ok; [split; assumption|exact I| |].
      + destruct (d k); [|exact I]. unfold dserv_get. now destruct (_ && _).
      + intros _. right. right. split; [apply same_no_fail|]. cbn. now destruct (d k).
    - unfold hFind. pose proof (good_find hash n W P Hn Hh HP d (h_shard h) w k Hg Hk) as F. destruct (Find hash w k (h_shard h)) as [rf s]. destruct F as [Hg' F].
      assert (Hd : dgood d (DHamt (mkHD s (h_change h)), w)) by (split; assumption).
      destruct rf as [[l|]|e| |]; try contradiction; cbn [snd].
      + apply quiet_ok; [assumption|exact I| |].
        * unfold dserv_get. now destruct (_ && _).
        * intros _. right. right. split; [apply same_no_fail|]. cbn. now rewrite F.
      + apply quiet_ok; [assumption|exact I|exact I|]. intros _. destruct F as [[-> F]|[-> F]]; [|left; auto]. right. right. split; [apply same_no_fail|]. cbn. now rewrite F.
  Qed.
  Lemma dLinks_ok mayc d x w r st' : dgood d (x, w) -> dLinks mayc (x, w) r st' -> step_ok mayc d (mkDobs DLinks w (snd st') (rmap (fun ls => VList (map named ls)) r)) st'.
  Proof.
    intros [H0 Hg] H. remember (x, w) as st eqn:E. destruct H as [b w0|h w0 t links Ht He|h w0 t links e Ht He|h w0 t Ht Hc]; injection E as <- <-; cbn [fst snd] in *.
    - apply quiet_ok; [split; assumption|exact I|exact I|]. intros _. right. right. split; [apply same_no_fail|]. cbn. eexists. split; [reflexivity|]. apply Hg.
    - apply quiet_ok; [split; assumption|exact I|exact I|]. intros ->. right. right. split; [apply same_no_fail|]. cbn. eexists. split; [reflexivity|].
      exact (facts_complete _ _ _ _ _ _ (good_facts hash n W P Hh HP _ _ _ Hg) Ht He).
    - apply quiet_ok; [split; assumption|exact I|exact I|]. intros ->. left. destruct (facts_errors _ _ _ _ _ _ _ (good_facts hash n W P Hh HP _ _ _ Hg) Ht He) as [-> F]. split; [exact F|reflexivity].
    - exfalso. exact (facts_no_crash _ _ _ _ _ _ (good_facts hash n W P Hh HP _ _ _ Hg) Ht Hc).
  Qed.
  Lemma dEach_ok mayc d x w : dgood d (x, w) ->
    let '((r, acc), st') := dEach (fun _ _ => None) (x, w) in step_ok mayc d (mkDobs DEach w (snd st') (rmap (fun _ => VList (map named (rev acc))) r)) st'.
  Proof.
    intros [H0 Hg]. cbn [dEach]. destruct x as [b|h]; cbn [fst snd] in Hg.
    - rewrite bForEach_all, app_nil_r. cbn [snd rmap]. apply quiet_ok; [split; assumption|exact I|exact I|]. intros _. right. right. split; [apply same_no_fail|]. cbn. eexists. split; [reflexivity|]. rewrite rev_involutive. apply Hg.
    - destruct (good_each hash n W P Hh HP d (h_shard h) w (fun _ _ => None) Hg) as (es & Hl & S). destruct (ForEachLink _ _ _) as [r [s acc]]. destruct S as [S1 S2]. rewrite feed_all, app_nil_r in S2.
      assert (Hd : dgood d (DHamt (mkHD s (h_change h)), w)) by (split; assumption). destruct r as [u|e| |]; try contradiction; cbn [snd rmap].
      + injection S2 as <-. apply quiet_ok; [assumption|exact I|exact I|]. intros _. right. right. split; [apply same_no_fail|]. cbn. eexists. split; [reflexivity|]. now rewrite rev_involutive, named_plain_id.
      + apply quiet_ok; [assumption|exact I|exact I|]. intros _. destruct S2 as [S2|(-> & F & _)]; [discriminate|]. left. split; [exact F|reflexivity].
  Qed.
  Lemma store_ok mayc d op w w' x r : dgood d (x, w') -> wext w w' -> op = DReload \/ (exists nd, op = DStore nd) ->
    (r = Ok VUnit /\ all_added w w' \/ r = Err EAdd /\ add_failed w w') -> step_ok mayc d (mkDobs op w w' r) (x, w').
  Proof.
    intros Hg Hx Ho Hr. split; [assumption|]. split; [destruct Hr as [[-> _]|[-> _]]; exact I|]. split.
    - unfold deffect. cbn [q_res q_op]. destruct Ho as [->|[nd ->]], Hr as [[-> _]|[-> _]]; assumption.
    - intros _. destruct Hr as [[-> F]|[-> F]]; [right; right|right; left]; cbn; (split; [auto using added_no_fail|]); destruct Ho as [->|[nd ->]]; auto.
  Qed.
  Lemma encoded_good d x w : dgood d (x, w) -> dgood d (dEncoded x, w).
  Proof.
    intros [H0 Hg]. split; [assumption|]. destruct x as [b|h]; cbn [dEncoded fst snd] in *; [|assumption]. destruct Hg as [B1 B2 B3 B4]. constructor; unfold b_set_links; cbn [b_prefix b_data b_links b_est]; auto; [now apply lsort_listing|].
    rewrite B4. apply linksSize_perm. symmetry. apply lsort_perm.
  Qed.
  Lemma dReload_ok mayc d x w : dgood d (x, w) ->
    let '(r, st') := dReload (x, w) in step_ok mayc d (mkDobs DReload w (snd st') (rmap (fun _ => VUnit) r)) st'.
  Proof.
    intros Hx. pose proof Hx as [H0 Hg]. unfold dReload. cbn [dGetNode]. destruct x as [b|h]; cbn [fst snd] in Hg.
    - destruct (add_spec (NProto (b_prefix b) (b_data b) (b_links b)) w) as (r & w' & -> & X & Hr). pose proof (dgood_world _ _ _ _ Hx X) as Hx'. destruct Hr as [[-> F]|[-> F]].
      + destruct (basic_reload P D d b (folder_is_dir D HD) Hg) as (b' & -> & Hb'). cbn [snd rmap]. apply store_ok; auto. split; assumption.
      + cbn [snd rmap]. apply store_ok; auto. now apply encoded_good.
    - pose proof (good_node hash n W P Hh HP d (h_shard h) w Hg) as G. destruct (Node (h_shard h) w) as [r w1]. destruct G as [X1 G]. destruct r as [nd|e| |]; try contradiction.
      + destruct G as (_ & A1 & Es & p & b & ls & fsn & s' & -> & E1 & E2 & E3 & G). destruct (add_spec (NProto p b ls) w1) as (r & w2 & -> & X2 & Hr). pose proof (wext_trans _ _ _ X1 X2) as X. destruct Hr as [[-> F]|[-> F]].
        * rewrite Es. cbn [NewDirectoryFromNode]. rewrite E1. cbn [rbind]. rewrite E2. change (THAMTShard =? TDirectory) with false. change (THAMTShard =? THAMTShard) with true. cbn [rmap]. rewrite E3. cbn [rmap snd].
          apply store_ok; [|assumption|now left|left; split; [reflexivity|exact (all_added_trans _ _ _ X1 A1 F)]]. split; [assumption|]. cbn [fst snd h_shard]. eapply good_world; eauto.
        * cbn [snd rmap dEncoded]. apply store_ok; [now apply (dgood_world _ _ w)|assumption|now left|right; split; [reflexivity|exact (add_failed_r _ _ _ X1 F)]].
      + destruct G as [-> F]. cbn [snd rmap]. apply store_ok; auto. now apply (dgood_world _ _ w).
  Qed.

  Lemma dexec_ok mayc T op d x w r st' : dgood d (x, w) -> dname op <> Some [] -> dexec hash W mayc T op (x, w) r st' -> step_ok mayc d (mkDobs op w (snd st') r) st'.
  Proof.
    intros Hg Hk H. destruct op as [k nd|k|k| | | |nd]; cbn [dname] in Hk; try (assert (Hk' : k <> []) by (intros ->; now apply Hk)); cbn [dexec] in H.
    - destruct H as (r0 & H & ->). now apply dAdd_ok with (T := T) (x := x).
    - destruct H as (r0 & H & ->). now apply dRemove_ok with (T := T) (x := x).
    - pose proof (dFind_ok mayc k d x w Hg Hk') as S. destruct (dFind hash k (x, w)) as [r0 st1]. destruct H as [-> ->]. exact S.
    - destruct H as (r0 & H & ->). now apply dLinks_ok with (x := x).
    - pose proof (dEach_ok mayc d x w Hg) as S. destruct (dEach _ (x, w)) as [[r0 acc] st1]. destruct H as [-> ->]. exact S.
    - pose proof (dReload_ok mayc d x w Hg) as S. destruct (dReload (x, w)) as [r0 st1]. destruct H as [-> ->]. exact S.
    - cbn [snd fst] in H. destruct (add_spec nd w) as (r0 & w' & E & X & Hr). rewrite E in H. destruct H as [-> ->]. cbn [snd]. apply store_ok; eauto; [now apply (dgood_world _ _ w)|]. destruct Hr as [[-> F]|[-> F]]; [left|right]; auto.
  Qed.
  Lemma drun_ok mayc cs : forall d st h st', dgood d st -> named_dops (map snd cs) -> drun hash W mayc st cs h st' ->
    dgood (dcontents d h) st' /\ Forall (fun o => proper (q_res o)) h /\ (mayc = false -> dconforms unreachable (crowded hash us) d h) /\ map q_op h = map snd cs /\ wext (snd st) (snd st').
  Proof.
    induction cs as [|[T op] cs IH]; intros d st h st' Hg Hn' H; inversion H; subst.
    - split; [assumption|]. split; [constructor|]. split; [intros _; exact I|]. split; [reflexivity|apply wext_refl].
    - match goal with H : dexec _ _ _ _ _ _ ?r ?st1 |- _ => rename H into He; rename st1 into st2; rename r into r1 end. match goal with H : drun _ _ _ _ _ _ _ |- _ => rename H into Hr end.
      inversion Hn' as [|? ? N1 N2]; subst. destruct st as [x w]. destruct (dexec_ok mayc T op d x w r1 st2 Hg N1 He) as (S1 & S2 & S3 & S4). cbn [q_w q_w' q_res] in *.
      destruct (IH _ _ _ _ S3 N2 Hr) as (I1 & I2 & I3 & I4 & I5). split; [exact I1|]. split; [constructor; assumption|]. split; [intros Hm; split; auto|]. split; [cbn; now f_equal|]. eapply wext_trans; eauto.
  Qed.
End Dyn.

Section New.
  Variables (hash : bytes -> bytes) (n : nat) (W : Z) (b : option prefix).
  Hypothesis Hn : (2 <= n)%nat.
  Hypothesis Hh : forall k, length (hash k) = n.
  Hypothesis Hv : valid_width W.
  Variable D : bytes.
  Hypothesis HD : FolderPBData = Ok D.
  Notation P := (eq (proto_prefix b)).
  Lemma HPb p : proto_prefix b = p -> p = proto_prefix (Some p).
  Proof. intros <-. symmetry. apply proto_prefix_idem. Qed.
  Lemma new_good d0 w : NewDirectory b = Ok d0 -> dgood hash n W P D dempty (d0, w).
  Proof. unfold NewDirectory. destruct (empty_basic D HD) as (x & -> & Hx). cbn [rmap]. intros E. injection E as <-. split; [reflexivity|]. now apply Hx. Qed.
  Lemma new_exists : exists d0, NewDirectory b = Ok d0.
  Proof. unfold NewDirectory. destruct (empty_basic D HD) as (x & -> & Hx). cbn. eauto. Qed.
  Lemma reached_good st d : dreached hash W b st d -> dgood hash n W P D d st.
  Proof.
    intros (d0 & w0 & cs & h & E & N & R & ->). apply (drun_ok hash n W P Hn Hh HPb Hv D HD false cs dempty (d0, w0) h st (new_good d0 w0 E) N R).
  Qed.
  Lemma dir_history mayc d0 w cs h st : NewDirectory b = Ok d0 -> named_dops (map snd cs) -> drun hash W mayc (d0, w) cs h st ->
    Forall (fun o => proper (q_res o)) h /\ (mayc = false -> dconforms unreachable (crowded hash (usable n W)) dempty h) /\ map q_op h = map snd cs.
  Proof.
    intros E N R. destruct (drun_ok hash n W P Hn Hh HPb Hv D HD mayc cs dempty (d0, w) h st (new_good d0 w E) N R) as (_ & H1 & H2 & H3 & _). auto.
  Qed.
End New.
