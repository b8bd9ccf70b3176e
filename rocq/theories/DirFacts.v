(** Facts about histories of directories, in the form the properties use. *)
From Verif Require Import Base Pb PbProofs FSNode FSNodeProofs Dag DagProofs Builder HashBits Bitfield SpecHash HashProofs Hamt SpecHamt HamtExec HamtRep HamtNode HamtRun HamtFacts Walk WalkProofs WalkDir HamtAbs Directory SpecDir DirExec DirBasic DirectoryProofs.
From Coq Require Import Permutation.

(** ** The basic directory *)
Lemma bexec_ok P D d b w op : is_dir_data D -> bgood P D d b ->
  let '(r, (b', w')) := bexec op (b, w) in
  let o := mkDobs op w w' r in
  bgood P D (deffect d o) b' /\ dallowed never never d o /\ q_op o = op.
Proof.
  intros HD Hg. assert (Q : forall r, match op with DAdd _ _ | DRemove _ => False | _ => True end -> bgood P D (deffect d (mkDobs op w w r)) b) by (intros r Ho; unfold deffect; cbn [q_res q_op]; destruct r, op; tauto).
  destruct op as [k nd|k|k| | | |nd]; cbn [bexec].
  - destruct (bAddChild_spec P D d b k nd Hg) as (b' & -> & Hb). cbn [rmap]. split; [exact Hb|]. split; [|reflexivity]. right. right. split; [apply same_no_fail|]. now left.
  - pose proof (bRemoveChild_spec P D d b k Hg) as R. destruct (d k) as [e|] eqn:E.
    + destruct R as (b' & -> & Hb). cbn [rmap]. split; [exact Hb|]. split; [|reflexivity]. right. right. split; [apply same_no_fail|]. cbn. now rewrite E.
    + rewrite R. cbn [rmap]. split; [exact Hg|]. split; [|reflexivity]. right. right. split; [apply same_no_fail|]. cbn. now rewrite E.
  - rewrite (bFind_spec P D d b k w Hg). split; [now apply Q|]. split; [|reflexivity]. right. right. split; [apply same_no_fail|]. cbn. now destruct (d k).
  - split; [now apply Q|]. split; [|reflexivity]. right. right. split; [apply same_no_fail|]. cbn. eexists. split; [reflexivity|]. apply Hg.
  - rewrite bForEach_all, app_nil_r. cbn [rmap]. split; [now apply Q|]. split; [|reflexivity]. right. right. split; [apply same_no_fail|]. cbn. eexists. split; [reflexivity|]. rewrite rev_involutive. apply Hg.
  - unfold dReload. cbn [dGetNode]. destruct (add_spec (NProto (b_prefix b) (b_data b) (b_links b)) w) as (r & w' & -> & X & Hr). destruct Hr as [[-> F]|[-> F]].
    + destruct (basic_reload P D d b HD Hg) as (b' & -> & Hb). cbn [rmap]. split; [exact Hb|]. split; [|reflexivity]. right. right. split; [now apply added_no_fail|]. reflexivity.
    + cbn [dEncoded rmap]. split; [|split; [|reflexivity]].
      * unfold deffect. cbn [q_res]. destruct Hg as [B1 B2 B3 B4]. constructor; unfold b_set_links; cbn [b_prefix b_data b_links b_est]; auto; [now apply lsort_listing|]. rewrite B4. apply linksSize_perm. symmetry. apply lsort_perm.
      * right. left. cbn. auto.
  - destruct (add_spec nd w) as (r & w' & -> & X & Hr). destruct Hr as [[-> F]|[-> F]]; cbn [rmap]; (split; [exact Hg|]); (split; [|reflexivity]); [right; right; split; [now apply added_no_fail|reflexivity]|right; left; cbn; auto].
Qed.
Lemma brun_ok P D ops : is_dir_data D -> forall d b w, bgood P D d b ->
  let '(h, (b', w')) := brun ops (b, w) in dconforms never never d h /\ map q_op h = ops /\ bgood P D (dcontents d h) b'.
Proof.
  intros HD. induction ops as [|op ops IH]; intros d b w Hg; [cbn; auto|]. cbn [brun]. pose proof (bexec_ok P D d b w op HD Hg) as S. destruct (bexec op (b, w)) as [r [b1 w1]]. destruct S as (S1 & S2 & S3).
  specialize (IH _ _ w1 S1). destruct (brun ops (b1, w1)) as [h [b2 w2]]. destruct IH as (I1 & I2 & I3). cbn [snd dconforms map]. split; [split; assumption|]. split; [now rewrite I2|]. exact I3.
Qed.
Lemma basic_history n b d0 ops w h b' w' : NewDirectoryFromNode n = Ok (DBasic b) -> listing d0 (map named (node_links n)) -> brun ops (b, w) = (h, (b', w')) ->
  dconforms never never d0 h /\ map q_op h = ops /\ has_size (dcontents d0 h) (b_est b').
Proof.
  intros E L R. destruct n as [p x|p x ls]; [discriminate|]. cbn [NewDirectoryFromNode node_links] in *. destruct (FSNodeFromBytes x) as [fsn| | |] eqn:Ef; try discriminate. cbn [rbind] in E.
  destruct (getType fsn =? TDirectory) eqn:Et; [|destruct (getType fsn =? THAMTShard); [destruct (NewHamtFromDag _); discriminate|discriminate]]. injection E as <-.
  assert (Hd : is_dir_data x) by (exists fsn; split; [assumption|lia]).
  assert (Hg : bgood (eq p) x d0 (newBasicDirectoryFromNode p x ls)) by (constructor; cbn [newBasicDirectoryFromNode b_prefix b_data b_links b_est]; auto using estimate).
  pose proof (brun_ok (eq p) x ops Hd d0 _ w Hg) as S. rewrite R in S. destruct S as (S1 & S2 & S3). split; [assumption|]. split; [assumption|]. now apply bgood_size with (P := eq p) (D := x).
Qed.

(** ** The dynamic directory *)
Lemma folder_data : exists D, FolderPBData = Ok D.
Proof. destruct FolderPBData_decode as (D & E & _). eauto. Qed.

(** Size checks. *)
Lemma facts_walk d s w : facts d s w -> exists t, wsteps w false (walk_start 32 s) t /\ enum_returns t (w_out t) (w_err t).
Proof.
  intros HF. destruct (walk_ends w 32 s (walk_start 32 s)) as (u & Hu & Ho); [lia|apply wsteps_refl|intros u Hu; eapply facts_no_crash; eauto|].
  exists u. split; [assumption|]. split; [assumption|]. auto.
Qed.
Lemma first_above T c seen : stays_below T c seen \/ exists a l b, seen = a ++ l :: b /\ stays_below T c a /\ T <= linksSize (a ++ [l]) + c.
Proof.
  induction seen as [|x seen IH] using rev_ind; [left; intros a b' E Ha; destruct a; [congruence|discriminate]|].
  destruct IH as [IH|(a & l & b' & -> & H1 & H2)]; [|right; exists a, l, (b' ++ [x]); split; [now rewrite <- app_assoc|auto]].
  destruct (Z_lt_ge_dec (linksSize (seen ++ [x]) + c) T) as [Hl|Hg]; [left|right; exists seen, x, []; split; [reflexivity|split; [assumption|lia]]].
  intros a b' E Ha. destruct b' as [|y b'] using rev_ind; [rewrite app_nil_r in E; now subst a|]. rewrite app_assoc in E. apply app_inj_tail in E as [-> <-]. now apply (IH a b').
Qed.
Lemma size_check_total d s w T c : facts d s w -> T <> 0 -> exists r, sizeBelowThreshold w false T s c r.
Proof.
  intros HF HT. destruct (facts_walk d s w HF) as (t & Ht & He). destruct (first_above T c (w_out t)) as [Hb|(a & l & b' & E & H1 & H2)].
  - destruct (w_err t) as [e|] eqn:Ee; [exists (Err e); eapply SB_err; eauto|exists (Ok true); eapply SB_below; eauto].
  - exists (Ok false). eapply SB_above; eauto.
Qed.
Lemma size_check_same d s w T c r1 r2 : facts d s w -> ~ unreachable w -> sizeBelowThreshold w false T s c r1 -> sizeBelowThreshold w false T s c r2 -> r1 = r2.
Proof.
  intros HF Hu H1 H2. pose proof HF as (es & Hl & _). set (z := sumZ (map entry_size es)). assert (Hz : has_size d z) by (exists es; auto).
  pose proof (sizeBelow_spec w false T s c r1 d z HF Hz H1) as S1. pose proof (sizeBelow_spec w false T s c r2 d z HF Hz H2) as S2.
  assert (Hemp : es = [] -> ~ sizeBelowThreshold w false T s c (Ok false)).
  { intros -> Hf. inversion Hf as [|t a l b' HT Hw Ho Hb Ha| | |]; subst. destruct (facts_sound s w d false 32 t HF Hw) as [_ I]. assert (Hi : In l (w_out t)) by (rewrite Ho; apply in_app_iff; right; now left). apply I in Hi. apply (proj2 Hl) in Hi. destruct Hi. }
  assert (Hne : es <> [] -> exists k, d k <> None). { destruct es as [|[k e] es]; [congruence|]. intros _. exists k. rewrite (proj1 (proj2 Hl k e)); [discriminate|now left]. }
  assert (Hdec : es = [] \/ es <> []) by (destruct es; [now left|right; discriminate]).
  destruct r1 as [[|]|e1| |], r2 as [[|]|e2| |]; try contradiction; try reflexivity; try (exfalso; apply Hu; now apply S1); try (exfalso; apply Hu; now apply S2); try (exfalso; lia); exfalso.
  - destruct Hdec as [He|He]; [now apply Hemp|]. destruct S1 as [_ S1]. specialize (S1 eq_refl (Hne He)). lia.
  - destruct Hdec as [He|He]; [now apply Hemp|]. destruct S2 as [_ S2]. specialize (S2 eq_refl (Hne He)). lia.
Qed.

Lemma size_check_empty d s w T c : facts d s w -> (forall k, d k = None) -> ~ unreachable w -> T <> 0 -> sizeBelowThreshold w false T s c (Ok true).
Proof.
  intros HF He Hu HT. destruct (size_check_total d s w T c HF HT) as [r Hr]. pose proof HF as (es & Hl & _).
  assert (Hz : has_size d 0). { exists []. split; [|reflexivity]. split; [constructor|]. intros k e. rewrite He. split; [intros []|discriminate]. }
  pose proof (sizeBelow_spec w false T s c r d 0 HF Hz Hr) as S. destruct r as [[|]|e| |]; try contradiction; [assumption|exfalso|exfalso; apply Hu; now apply S].
  inversion Hr as [|t a l b' HT' Hw Ho Hb Ha| | |]; subst. destruct (facts_sound s w d false 32 t HF Hw) as [_ I]. assert (Hi : In l (w_out t)) by (rewrite Ho; apply in_app_iff; right; now left). apply I in Hi. rewrite He in Hi. discriminate.
Qed.

Section Facts.
  Variables (hash : bytes -> bytes) (n : nat) (W : Z) (b : option prefix).
  Hypothesis Hn : (2 <= n)%nat.
  Hypothesis Hh : forall k, length (hash k) = n.
  Hypothesis Hv : valid_width W.
  Notation P := (eq (proto_prefix b)).

  Lemma history_conforms d0 w cs h st : NewDirectory b = Ok d0 -> named_dops (map snd cs) -> drun hash W false (d0, w) cs h st ->
    dconforms unreachable (crowded hash (usable n W)) dempty h.
  Proof. intros E N R. destruct folder_data as [D HD]. now apply (dir_history hash n W b Hn Hh Hv D HD false d0 w cs h st E N R). Qed.
  Lemma history_proper mayc d0 w cs h st : NewDirectory b = Ok d0 -> named_dops (map snd cs) -> drun hash W mayc (d0, w) cs h st ->
    Forall (fun o => q_res o <> Panic /\ q_res o <> Fuel) h.
  Proof.
    intros E N R. destruct folder_data as [D HD]. destruct (dir_history hash n W b Hn Hh Hv D HD mayc d0 w cs h st E N R) as (H & _).
    eapply Forall_impl; [|exact H]. intros o Ho. cbn beta in Ho. unfold proper in Ho. destruct (q_res o); try contradiction; split; discriminate.
  Qed.
  (** Contents after a history in which contexts may have been cancelled. *)
  Lemma history_contents mayc d0 w cs h st r st' : NewDirectory b = Ok d0 -> named_dops (map snd cs) -> drun hash W mayc (d0, w) cs h st ->
    dexec hash W false 0 DEach st r st' -> dallowed unreachable (crowded hash (usable n W)) (dcontents dempty h) (mkDobs DEach (snd st) (snd st') r).
  Proof.
    intros E N R H. destruct folder_data as [D HD]. destruct (drun_ok hash n W P Hn Hh (HPb b) Hv D HD mayc cs dempty (d0, w) h st (new_good hash n W b D HD d0 w E) N R) as (H1 & _).
    destruct st as [x w1]. now apply (dexec_ok hash n W P Hn Hh (HPb b) Hv D HD false 0 DEach _ x w1 r st' H1).
  Qed.

  Section State.
    Variables (D : bytes) (HD : FolderPBData = Ok D).
    Notation dgood := (dgood hash n W P D).
    Notation good := (good hash n W P).

    Lemma needs_total d h w T k nd : good d (h_shard h) w -> k <> [] -> exists r h', needsToSwitchToBasicDir hash w false T k nd h r h'.
    Proof.
      intros Hg Hk. unfold needsToSwitchToBasicDir. destruct (T =? 0) eqn:ET; [eauto|]. pose proof (good_find hash n W P Hn Hh (HPb b) d (h_shard h) w k Hg Hk) as F. destruct (Find hash w k (h_shard h)) as [rf s]. destruct F as [Hg' F].
      assert (Dec : forall old, exists r h', h' = mkHD s (h_change h) /\ (if 0 <=? h_change h + (newSize k nd - old) then r = Ok false else sizeBelowThreshold w false T s (newSize k nd - old) r)).
      { intros old. destruct (0 <=? _); [eauto|]. destruct (size_check_total d s w T (newSize k nd - old) (good_facts hash n W P Hh (HPb b) _ _ _ Hg') ltac:(lia)) as [r Hr]. eauto. }
      destruct rf as [[l|]|e| |]; try contradiction; [apply Dec|]. destruct F as [[-> F]|[-> F]]; [apply Dec|eauto].
    Qed.
    Lemma needs_same d h w T k nd r1 h1 r2 h2 : good d (h_shard h) w -> k <> [] -> ~ unreachable w ->
      needsToSwitchToBasicDir hash w false T k nd h r1 h1 -> needsToSwitchToBasicDir hash w false T k nd h r2 h2 -> r1 = r2 /\ h1 = h2.
    Proof.
      intros Hg Hk Hu. unfold needsToSwitchToBasicDir. destruct (T =? 0) eqn:ET; [intros [-> ->] [-> ->]; auto|]. pose proof (good_find hash n W P Hn Hh (HPb b) d (h_shard h) w k Hg Hk) as F. destruct (Find hash w k (h_shard h)) as [rf s]. destruct F as [Hg' F].
      assert (Dec : forall old, (h1 = mkHD s (h_change h) /\ (if 0 <=? h_change h + (newSize k nd - old) then r1 = Ok false else sizeBelowThreshold w false T s (newSize k nd - old) r1)) ->
        (h2 = mkHD s (h_change h) /\ (if 0 <=? h_change h + (newSize k nd - old) then r2 = Ok false else sizeBelowThreshold w false T s (newSize k nd - old) r2)) -> r1 = r2 /\ h1 = h2).
      { intros old [-> H1] [-> H2]. split; [|reflexivity]. destruct (0 <=? _); [congruence|]. exact (size_check_same d s w T _ r1 r2 (good_facts hash n W P Hh (HPb b) _ _ _ Hg') Hu H1 H2). }
      destruct rf as [[l|]|e| |]; try contradiction; [apply Dec|]. destruct F as [[-> F]|[-> F]]; [apply Dec|]. intros [-> ->] [-> ->]. auto.
    Qed.
    Lemma on_hamt_total {A} w (m : N hamtdir A) h k : (exists ra h1, m h ra h1 /\ proper ra) -> (forall a h1, m h (Ok a) h1 -> exists r st, k a h1 r st) -> exists r st, on_hamt w m h k r st.
    Proof.
      intros (ra & h1 & Hm & Hp) Hk. destruct ra as [a|e| |]; try contradiction.
      - destruct (Hk a h1 Hm) as (r & st & H). exists r, st, (Ok a), h1. auto.
      - exists (Err e), (DHamt h1, w), (Err e), h1. auto.
    Qed.

    Lemma dexec_total d x w T op : dgood d (x, w) -> dname op <> Some [] -> exists r st', dexec hash W false T op (x, w) r st'.
    Proof.
      intros [H0 Hg] Hk. destruct op as [k nd|k|k| | | |nd]; cbn [dname] in Hk; try (assert (Hk' : k <> []) by (intros ->; now apply Hk)); cbn [dexec].
      - enough (exists r0 st', dAddChild hash W false T k nd (x, w) r0 st') as (r0 & st' & H) by eauto. cbn [dAddChild]. destruct x as [bb|h]; cbn [fst snd] in Hg.
        + destruct (needsToSwitchToHAMTDir _ _ _ _); [|destruct (bAddChild k nd bb); eauto].
          destruct (switchToSharding hash W w bb) as [h|e| |]; [|eauto|eauto|eauto]. destruct (hAddChild hash k nd (h, w)) as [[u|e| |] [h1 w1]]; eauto.
        + apply on_hamt_total.
          * destruct (needs_total d h w T k (Some nd) Hg Hk') as (ra & h1 & Hm). exists ra, h1. split; [assumption|]. destruct (needsBasic_spec hash n W P Hn Hh (HPb b) w false T k (Some nd) h ra h1 d Hg Hk' Hm) as (_ & _ & Hr). now destruct ra as [[|]| | |].
          * intros [|] h1 Hm; [|destruct (hAddChild hash k nd (h1, w)) as [r1 [h2 w1]]; eauto]. destruct (needsBasic_spec hash n W P Hn Hh (HPb b) w false T k (Some nd) h _ h1 d Hg Hk' Hm) as (Hg1 & _ & _).
            apply on_hamt_total; [|intros bb h2 _; destruct (bAddChild k nd bb) as [[u|e| |] b1]; eauto].
            unfold det. pose proof (switchToBasic_spec hash n W P Hh (HPb b) D HD w d h1 Hg1) as S. destruct (switchToBasic w h1) as [rb h2]. exists rb, h2. split; [reflexivity|]. now destruct rb.
      - enough (exists r0 st', dRemoveChild hash false T k (x, w) r0 st') as (r0 & st' & H) by eauto. cbn [dRemoveChild]. destruct x as [bb|h]; cbn [fst snd] in Hg.
        + destruct (bRemoveChild k bb); eauto.
        + apply on_hamt_total.
          * destruct (needs_total d h w T k None Hg Hk') as (ra & h1 & Hm). exists ra, h1. split; [assumption|]. destruct (needsBasic_spec hash n W P Hn Hh (HPb b) w false T k None h ra h1 d Hg Hk' Hm) as (_ & _ & Hr). now destruct ra as [[|]| | |].
          * intros [|] h1 Hm; [|destruct (hRemoveChild hash w k h1) as [r1 h2]; eauto]. destruct (needsBasic_spec hash n W P Hn Hh (HPb b) w false T k None h _ h1 d Hg Hk' Hm) as (Hg1 & _ & _).
            apply on_hamt_total; [|intros bb h2 _; destruct (bRemoveChild k bb) as [[u|e| |] b1]; eauto].
            unfold det. pose proof (switchToBasic_spec hash n W P Hh (HPb b) D HD w d h1 Hg1) as S. destruct (switchToBasic w h1) as [rb h2]. exists rb, h2. split; [reflexivity|]. now destruct rb.
      - destruct (dFind hash k (x, w)) as [r0 st1]. eauto.
      - enough (exists r0 st', dLinks false (x, w) r0 st') as (r0 & st' & H) by eauto. destruct x as [bb|h]; cbn [fst snd] in Hg; [eexists _, _; constructor|].
        destruct (facts_walk d (h_shard h) w (good_facts hash n W P Hh (HPb b) _ _ _ Hg)) as (t & Ht & He). destruct (w_err t) as [e|] eqn:Ee; [exists (Err e); eexists; eapply DL_err; eauto|eexists _, _; eapply DL_hamt; eauto].
      - destruct (dEach _ (x, w)) as [[r0 acc] st1]. eauto.
      - destruct (dReload (x, w)) as [r0 st1]. eauto.
      - destruct (dserv_add nd None (snd (x, w))) as [r0 w1]. eauto.
    Qed.

    Lemma needsHamt d bb T k nd z : bgood P D d bb -> has_size (dput d k (Some (node_entry nd))) z -> needsToSwitchToHAMTDir T k (Some nd) bb = true <-> T <> 0 /\ T <= z.
    Proof.
      intros Hg Hz. assert (E : z = b_est bb + (linkSize k (seal nd) - match GetNodeLink k (b_links bb) with Some l => linkSize k (lto l) | None => 0 end)).
      { eapply size_unique; [exact Hz|]. pose proof (has_size_put d _ k (Some (node_entry nd)) (bgood_size P D d bb Hg)) as H. pose proof (get_spec d (b_links bb) k (bg_list _ _ _ _ Hg)) as G.
        replace (match GetNodeLink k (b_links bb) with Some l => _ | None => 0 end) with (osize k (d k)); [exact H|]. destruct (GetNodeLink k (b_links bb)) as [l|]; [destruct G as [_ ->]; reflexivity|now rewrite G]. }
      unfold needsToSwitchToHAMTDir. cbn [newSize]. rewrite <- E. destruct (T =? 0) eqn:ET; [split; [discriminate|lia]|]. lia.
    Qed.

    Lemma up d bb w mayc T k nd z r st' : dgood d (DBasic bb, w) -> k <> [] -> has_size (dput d k (Some (node_entry nd))) z -> dAddChild hash W mayc T k nd (DBasic bb, w) r st' ->
      (r = Ok tt -> (sharded (fst st') = true <-> T <> 0 /\ T <= z)) /\ (r <> Ok tt -> sharded (fst st') = false /\ T <> 0 /\ T <= z).
    Proof.
      intros [H0 Hg] Hk Hz H. cbn [fst snd] in Hg. pose proof (needsHamt d bb T k nd z Hg Hz) as Hs. cbn [dAddChild] in H. destruct (needsToSwitchToHAMTDir T k (Some nd) bb).
      - pose proof (proj1 Hs eq_refl) as HT. destruct (switchToSharding hash W w bb) as [h|e| |].
        + destruct (hAddChild hash k nd (h, w)) as [[[]|e| |] [h1 w1]]; destruct H as [-> ->]; cbn [fst sharded]; (split; [intros; try discriminate; tauto|intros Hne; try congruence; auto]).
        + destruct H as [-> ->]. split; [discriminate|auto].
        + destruct H as [-> ->]. split; [discriminate|auto].
        + destruct H as [-> ->]. split; [discriminate|auto].
      - destruct (bAddChild_spec P D d bb k nd Hg) as (b' & E & Hb). rewrite E in H. destruct H as [-> ->]. cbn [fst sharded]. split; [intros _; rewrite <- Hs; split; discriminate|congruence].
    Qed.
    Lemma down d h w T k nd z r st' : dgood d (DHamt h, w) -> (exists x, d x <> None) -> k <> [] -> has_size (dput d k (option_map node_entry nd)) z ->
      match nd with Some nd => dAddChild hash W false T k nd | None => dRemoveChild hash false T k end (DHamt h, w) r st' -> sharded (fst st') = false -> r = Ok tt /\ T <> 0 /\ z < T.
    Proof.
      intros [H0 Hg] He Hk Hz H Hs. cbn [fst snd] in Hg.
      destruct nd as [nd|]; cbn [dAddChild dRemoveChild] in H; destruct H as (ra & h1 & Hm & H);
        destruct (needsBasic_spec hash n W P Hn Hh (HPb b) w false T k _ h ra h1 d Hg Hk Hm) as (Hg1 & _ & Hr);
        (destruct ra as [[|]|e| |]; try contradiction; [| |destruct H as [-> ->]; discriminate]).
      - destruct H as (rb & h2 & Hd & H). destruct rb as [bb|e| |]; [|destruct H as [-> ->]; discriminate ..]. destruct Hr as (HT & _ & Hr). specialize (Hr eq_refl He z Hz).
        destruct (bAddChild k nd bb) as [[[]|e| |] b1]; destruct H as [-> ->]; try discriminate. auto.
      - destruct (hAddChild hash k nd (h1, w)) as [r1 [h2 w1]]. destruct H as [-> ->]. discriminate.
      - destruct H as (rb & h2 & Hd & H). destruct rb as [bb|e| |]; [|destruct H as [-> ->]; discriminate ..]. destruct Hr as (HT & _ & Hr). specialize (Hr eq_refl He z Hz).
        destruct (bRemoveChild k bb) as [[[]|e| |] b1]; destruct H as [-> ->]; try discriminate. auto.
      - destruct (hRemoveChild hash w k h1) as [r1 h2]. destruct H as [-> ->]. discriminate.
    Qed.
    (** The other direction, when the tracked change says that the directory has shrunk. *)
    Lemma shrinks d h w T k nd z0 z r st' : dgood d (DHamt h, w) -> k <> [] -> has_size d z0 -> has_size (dput d k (option_map node_entry nd)) z ->
      ~ unreachable w -> T <> 0 -> h_change h + (z - z0) < 0 -> z < T -> (nd = None -> d k <> None) ->
      match nd with Some nd => dAddChild hash W false T k nd | None => dRemoveChild hash false T k end (DHamt h, w) r st' -> r = Ok tt /\ sharded (fst st') = false.
    Proof.
      intros [H0 Hg] Hk Hz0 Hz Hu HT Hc HzT Hd H. cbn [fst snd] in Hg.
      assert (E : newSize k nd - osize k (d k) = z - z0). { pose proof (has_size_put d z0 k (option_map node_entry nd) Hz0) as Hp. rewrite (size_unique _ _ _ Hz Hp), newSize_osize. lia. }
      destruct nd as [nd|]; cbn [dAddChild dRemoveChild] in H; destruct H as (ra & h1 & Hm & H);
        destruct (needsBasic_spec hash n W P Hn Hh (HPb b) w false T k _ h ra h1 d Hg Hk Hm) as (Hg1 & _ & Hr); rewrite ?E in Hr;
        (destruct ra as [[|]|e| |]; try contradiction; [|exfalso; destruct Hr as [Hr|[Hr|Hr]]; [lia|lia|specialize (Hr z Hz); lia]|exfalso; apply Hu; now apply Hr]).
      - destruct H as (rb & h2 & Hs & H). unfold det in Hs. pose proof (switchToBasic_spec hash n W P Hh (HPb b) D HD w d h1 Hg1) as S. rewrite Hs in S. destruct S as (_ & _ & S).
        destruct rb as [bb|e| |]; try contradiction; [|exfalso; apply Hu, S]. destruct (bAddChild_spec P D d bb k nd S) as (b' & Ea & _). rewrite Ea in H. destruct H as [-> ->]. auto.
      - destruct H as (rb & h2 & Hs & H). unfold det in Hs. pose proof (switchToBasic_spec hash n W P Hh (HPb b) D HD w d h1 Hg1) as S. rewrite Hs in S. destruct S as (_ & _ & S).
        destruct rb as [bb|e| |]; try contradiction; [|exfalso; apply Hu, S]. pose proof (bRemoveChild_spec P D d bb k S) as R. destruct (d k); [|now specialize (Hd eq_refl)]. destruct R as (b' & Ea & _). rewrite Ea in H. destruct H as [-> ->]. auto.
    Qed.
    Lemma reload_fresh d x w mayc T r st' : dgood d (x, w) -> dexec hash W mayc T DReload (x, w) (Ok r) st' -> sharded x = true -> exists h, fst st' = DHamt h /\ h_change h = 0.
    Proof.
      intros [H0 Hg] H Hs. cbn [dexec] in H. destruct x as [bb|h]; [discriminate|]. cbn [fst snd] in Hg. unfold dReload in H. cbn [dGetNode] in H.
      pose proof (good_node hash n W P Hh (HPb b) d (h_shard h) w Hg) as G. destruct (Node (h_shard h) w) as [rn w1]. destruct G as [X1 G]. destruct rn as [nd|e| |]; try contradiction; [|destruct H as [_ H]; discriminate].
      destruct G as (_ & A1 & Es & p & b' & ls & fsn & s' & -> & E1 & E2 & E3 & G). destruct (add_spec (NProto p b' ls) w1) as (ra & w2 & Ea & X2 & Hr). rewrite Ea in H. destruct Hr as [[-> F]|[-> F]]; [|destruct H as [_ H]; discriminate].
      rewrite Es in H. cbn [NewDirectoryFromNode] in H. rewrite E1 in H. cbn [rbind] in H. rewrite E2 in H. change (THAMTShard =? TDirectory) with false in H. change (THAMTShard =? THAMTShard) with true in H. cbv iota in H. rewrite E3 in H. cbn [rmap] in H. destruct H as [-> _]. cbn [fst]. eauto.
    Qed.
    Lemma others x w mayc T op r st' : dexec hash W mayc T op (x, w) r st' -> match op with DAdd _ _ | DReload => False | DRemove _ => sharded x = false | _ => True end -> sharded (fst st') = sharded x.
    Proof.
      intros H Ho. destruct op as [k nd|k|k| | | |nd]; try contradiction; cbn [dexec] in H.
      - destruct H as (r0 & H & _). destruct x; [|discriminate]. cbn [dRemoveChild] in H. destruct (bRemoveChild k b0). destruct H as [_ ->]. reflexivity.
      - cbn [dFind] in H. destruct x as [bb|h]; [destruct H as [-> _]; reflexivity|]. destruct (hFind hash w k h). destruct H as [-> _]. reflexivity.
      - destruct H as (r0 & H & _). inversion H; subst; reflexivity.
      - cbn [dEach] in H. destruct x as [bb|h]; [destruct (bForEachLink _ _ _); destruct H as [-> _]; reflexivity|]. destruct (ForEachLink _ _ _) as [r0 [s acc]]. destruct H as [-> _]. reflexivity.
      - destruct (dserv_add nd None _). destruct H as [-> _]. reflexivity.
    Qed.
    Lemma reload_same d x w mayc T r st' : dgood d (x, w) -> dexec hash W mayc T DReload (x, w) r st' -> sharded (fst st') = sharded x.
    Proof.
      intros [H0 Hg] H. cbn [dexec] in H. unfold dReload in H. cbn [dGetNode] in H. destruct x as [bb|h]; cbn [fst snd] in Hg.
      - destruct (add_spec (NProto (b_prefix bb) (b_data bb) (b_links bb)) w) as (r1 & w' & Ea & _ & Hr). rewrite Ea in H. destruct Hr as [[-> _]|[-> _]].
        + destruct (basic_reload P D d bb (folder_is_dir D HD) Hg) as (b' & E & Hb'). rewrite E in H. destruct H as [-> _]. reflexivity.
        + destruct H as [-> _]. reflexivity.
      - pose proof (good_node hash n W P Hh (HPb b) d (h_shard h) w Hg) as G. destruct (Node (h_shard h) w) as [r1 w1]. destruct G as [X1 G]. destruct r1 as [nd|e| |]; try contradiction.
        + destruct G as (_ & A1 & Es & p & dd & ls & fsn & s' & -> & E1 & E2 & E3 & G). destruct (add_spec (NProto p dd ls) w1) as (r2 & w2 & Ea & X2 & Hr). rewrite Ea in H. destruct Hr as [[-> F]|[-> F]].
          * rewrite Es in H. cbn [NewDirectoryFromNode] in H. rewrite E1 in H. cbn [rbind] in H. rewrite E2 in H. change (THAMTShard =? TDirectory) with false in H. change (THAMTShard =? THAMTShard) with true in H. cbv iota in H. rewrite E3 in H. cbn [rmap] in H. destruct H as [-> _]. reflexivity.
          * destruct H as [-> _]. reflexivity.
        + destruct H as [-> _]. reflexivity.
    Qed.

    Lemma add_same d x w T k nd r1 st1 r2 st2 : dgood d (x, w) -> k <> [] -> ~ unreachable w ->
      dAddChild hash W false T k nd (x, w) r1 st1 -> dAddChild hash W false T k nd (x, w) r2 st2 -> r1 = r2 /\ st1 = st2.
    Proof.
      intros [H0 Hg] Hk Hu H1 H2. cbn [dAddChild] in *. destruct x as [bb|h]; cbn [fst snd] in Hg.
      - destruct (needsToSwitchToHAMTDir T k (Some nd) bb).
        + destruct (switchToSharding hash W w bb) as [h|e| |]; [destruct (hAddChild hash k nd (h, w)) as [[u|e| |] [h1 w1]]|..]; destruct H1 as [-> ->], H2 as [-> ->]; auto.
        + destruct (bAddChild k nd bb). destruct H1 as [-> ->], H2 as [-> ->]; auto.
      - destruct H1 as (ra & h1 & M1 & H1). destruct H2 as (rb & h2 & M2 & H2). destruct (needs_same d h w T k (Some nd) ra h1 rb h2 Hg Hk Hu M1 M2) as [<- <-].
        destruct ra as [[|]|e| |].
        + destruct H1 as (x1 & y1 & N1 & H1). destruct H2 as (x2 & y2 & N2 & H2). unfold det in *. rewrite N1 in N2. injection N2 as <- <-. destruct x1 as [bb|e| |]; [destruct (bAddChild k nd bb) as [[u|e| |] b1]|..]; destruct H1 as [-> ->], H2 as [-> ->]; auto.
        + destruct (hAddChild hash k nd (h1, w)) as [r0 [h2 w1]]. destruct H1 as [-> ->], H2 as [-> ->]; auto.
        + destruct H1 as [-> ->], H2 as [-> ->]; auto.
        + destruct H1 as [-> ->], H2 as [-> ->]; auto.
        + destruct H1 as [-> ->], H2 as [-> ->]; auto.
    Qed.
    Lemma remove_same d x w T k r1 st1 r2 st2 : dgood d (x, w) -> k <> [] -> ~ unreachable w ->
      dRemoveChild hash false T k (x, w) r1 st1 -> dRemoveChild hash false T k (x, w) r2 st2 -> r1 = r2 /\ st1 = st2.
    Proof.
      intros [H0 Hg] Hk Hu H1 H2. cbn [dRemoveChild] in *. destruct x as [bb|h]; cbn [fst snd] in Hg.
      - destruct (bRemoveChild k bb). destruct H1 as [-> ->], H2 as [-> ->]; auto.
      - destruct H1 as (ra & h1 & M1 & H1). destruct H2 as (rb & h2 & M2 & H2). destruct (needs_same d h w T k None ra h1 rb h2 Hg Hk Hu M1 M2) as [<- <-].
        destruct ra as [[|]|e| |].
        + destruct H1 as (x1 & y1 & N1 & H1). destruct H2 as (x2 & y2 & N2 & H2). unfold det in *. rewrite N1 in N2. injection N2 as <- <-. destruct x1 as [bb|e| |]; [destruct (bRemoveChild k bb) as [[u|e| |] b1]|..]; destruct H1 as [-> ->], H2 as [-> ->]; auto.
        + destruct (hRemoveChild hash w k h1) as [r0 h2]. destruct H1 as [-> ->], H2 as [-> ->]; auto.
        + destruct H1 as [-> ->], H2 as [-> ->]; auto.
        + destruct H1 as [-> ->], H2 as [-> ->]; auto.
        + destruct H1 as [-> ->], H2 as [-> ->]; auto.
    Qed.
  End State.
End Facts.

Lemma one_root hash n W b1 b2 st1 st2 d1 d2 n1 n2 s1 s2 : (2 <= n)%nat -> (forall k, length (hash k) = n) -> valid_width W -> proto_prefix b1 = proto_prefix b2 ->
  dreached hash W b1 st1 d1 -> dreached hash W b2 st2 d2 -> deq d1 d2 -> sharded (fst st1) = sharded (fst st2) ->
  dGetNode st1 = (Ok n1, s1) -> dGetNode st2 = (Ok n2, s2) -> seal n1 = seal n2.
Proof.
  intros Hn Hh Hv Hp R1 R2 He Hs E1 E2. destruct folder_data as [D HD]. pose proof (reached_good hash n W b1 Hn Hh Hv D HD _ _ R1) as [_ G1]. pose proof (reached_good hash n W b2 Hn Hh Hv D HD _ _ R2) as [_ G2]. rewrite <- Hp in G2.
  destruct st1 as [x1 w1], st2 as [x2 w2]. cbn [fst snd] in *. destruct x1 as [c1|h1], x2 as [c2|h2]; try discriminate; cbn [dGetNode] in E1, E2.
  - injection E1 as <- _. injection E2 as <- _. destruct G1 as [P1 D1 L1 _], G2 as [P2 D2 L2 _]. cbn [seal]. rewrite <- P1, D1, <- P2, D2. f_equal. eapply lsort_canonical; [|exact L2]. eapply listing_deq; eauto.
  - destruct (Node (h_shard h1) w1) as [r1 v1] eqn:N1. destruct (Node (h_shard h2) w2) as [r2 v2] eqn:N2. injection E1 as -> <-. injection E2 as -> <-. f_equal.
    eapply (good_node_eq hash n W (eq (proto_prefix b1)) Hh d2); [congruence| |exact G2|exact N1|exact N2]. eapply good_deq; eauto.
Qed.

(** ** Directories reached by some history *)
Section Reached.
  Variables (hash : bytes -> bytes) (n : nat) (W : Z) (b : option prefix).
  Hypothesis Hn : (2 <= n)%nat.
  Hypothesis Hh : forall k, length (hash k) = n.
  Hypothesis Hv : valid_width W.

  Lemma up' d x w mayc T k nd z r st' : dreached hash W b (x, w) d -> sharded x = false -> k <> [] ->
    has_size (dput d k (Some (node_entry nd))) z -> dAddChild hash W mayc T k nd (x, w) r st' ->
    (r = Ok tt -> sharded (fst st') = true <-> T <> 0 /\ T <= z) /\ (r <> Ok tt -> sharded (fst st') = false /\ T <> 0 /\ T <= z).
  Proof using Hn Hh Hv. intros H Hs Hk Hz Hx. destruct folder_data as [D HD]. apply (reached_good hash n W b Hn Hh Hv D HD) in H. destruct x as [bb|h]; [|discriminate]. eapply up; eauto. Qed.
  Lemma down' d x w T k nd z r st' : dreached hash W b (x, w) d -> sharded x = true -> (exists y, d y <> None) -> k <> [] ->
    has_size (dput d k (option_map node_entry nd)) z ->
    match nd with Some n => dAddChild hash W false T k n | None => dRemoveChild hash false T k end (x, w) r st' ->
    sharded (fst st') = false -> r = Ok tt /\ T <> 0 /\ z < T.
  Proof using Hn Hh Hv. intros H Hs Hy Hk Hz Hx Hs'. destruct folder_data as [D HD]. apply (reached_good hash n W b Hn Hh Hv D HD) in H. destruct x as [bb|h]; [discriminate|]. eapply down; eauto. Qed.
  Lemma others' d x w mayc T op r st' : dreached hash W b (x, w) d -> dexec hash W mayc T op (x, w) r st' ->
    match op with DAdd _ _ => False | DRemove _ => sharded x = false | _ => True end -> sharded (fst st') = sharded x.
  Proof using Hn Hh Hv.
    intros H Hx Ho. destruct folder_data as [D HD]. apply (reached_good hash n W b Hn Hh Hv D HD) in H. destruct op; try (eapply others; [exact Hx|exact Ho]). eapply reload_same; eauto.
  Qed.
  Lemma one_result d x w T op r1 st1 r2 st2 : dreached hash W b (x, w) d -> ~ unreachable w ->
    match op with DAdd k _ | DRemove k => k <> [] | _ => False end ->
    dexec hash W false T op (x, w) r1 st1 -> dexec hash W false T op (x, w) r2 st2 -> r1 = r2 /\ st1 = st2.
  Proof using Hn Hh Hv.
    intros H Hu Hk H1 H2. destruct folder_data as [D HD]. apply (reached_good hash n W b Hn Hh Hv D HD) in H.
    destruct op as [k nd|k|k| | | |nd]; try contradiction; destruct H1 as (s1 & H1 & ->); destruct H2 as (s2 & H2 & ->).
    - destruct (add_same hash n W b Hn Hh D d x w T k nd s1 st1 s2 st2 H Hk Hu H1 H2) as [-> ->]. auto.
    - destruct (remove_same hash n W b Hn Hh D d x w T k s1 st1 s2 st2 H Hk Hu H1 H2) as [-> ->]. auto.
  Qed.
  Lemma total' d x w T op : dreached hash W b (x, w) d -> dname op <> Some [] -> exists r st', dexec hash W false T op (x, w) r st'.
  Proof using Hn Hh Hv. intros H Hk. destruct folder_data as [D HD]. apply (reached_good hash n W b Hn Hh Hv D HD) in H. eapply dexec_total; eauto. Qed.
  (** A directory that has just been loaded. *)
  Lemma shrinks' d x0 w0 x w T0 T k nd z0 z r st' : dreached hash W b (x0, w0) d -> sharded x0 = true -> dexec hash W false T0 DReload (x0, w0) (Ok VUnit) (x, w) ->
    ~ unreachable w -> k <> [] -> (nd = None -> d k <> None) -> has_size d z0 -> has_size (dput d k (option_map node_entry nd)) z -> z < z0 -> z < T ->
    match nd with Some n => dAddChild hash W false T k n | None => dRemoveChild hash false T k end (x, w) r st' -> r = Ok tt /\ sharded (fst st') = false.
  Proof using Hn Hh Hv.
    intros H0 Hs Hr Hu Hk Hd Hz0 Hz L1 L2 H. destruct folder_data as [D HD]. pose proof (reached_good hash n W b Hn Hh Hv D HD _ _ H0) as G0.
    destruct (reload_fresh hash n W b Hh D d x0 w0 false T0 VUnit (x, w) G0 Hr Hs) as (h & E & Ec). cbn [fst] in E. subst x.
    assert (H1 : dreached hash W b (DHamt h, w) d).
    { destruct H0 as (d0 & w1 & cs & hh & E1 & E2 & E3 & ->). exists d0, w1, (cs ++ [(T0, DReload)]), (hh ++ [mkDobs DReload w0 w (Ok VUnit)]). split; [assumption|]. split; [|split].
      - unfold named_dops. rewrite map_app. apply Forall_app. split; [assumption|]. constructor; [discriminate|constructor].
      - revert E3. generalize (d0, w1). clear - Hr. intros s E3. remember (x0, w0) as s0. induction E3; subst; cbn [app]; [|econstructor; eauto]. exact (dr_cons hash W false T0 DReload (x0, w0) (Ok VUnit) (DHamt h, w) [] [] (DHamt h, w) Hr (dr_nil hash W false (DHamt h, w))).
      - unfold dcontents. rewrite fold_left_app. reflexivity. }
    apply (reached_good hash n W b Hn Hh Hv D HD) in H1. assert (Hp : 0 <= z). { destruct Hz as (l & _ & ->). clear. induction l as [|e l IH]; cbn [map sumZ fold_right]; [lia|]. unfold sumZ in IH. assert (0 <= entry_size e) by (unfold entry_size, zlen; pose proof (cid_len_nonneg (node_prefix (snd (snd e)))); lia). lia. }
    eapply (shrinks hash n W b Hn Hh D HD d h w T k nd z0 z r st'); eauto; lia.
  Qed.
End Reached.
