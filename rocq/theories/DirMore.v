(** What holds of cancelled enumerations, abandoned size checks and repeated AddChild. *)
From Coq Require Import Permutation.
From Verif Require Import Base Pb PbProofs FSNode FSNodeProofs Dag DagProofs Builder HashBits Bitfield SpecHash HashProofs Hamt SpecHamt HamtExec HamtRep HamtNode HamtRun HamtFacts Walk WalkProofs WalkDir HamtAbs Directory SpecDir DirExec DirBasic DirectoryProofs DirFacts HamtWitness WalkWitness DirWitness.

(** ** Enumerations that may be cancelled *)
Lemma facts_uncancelled s w d mayc m t links : facts d s w -> wsteps w mayc (walk_start m s) t -> w_cancel t = false -> enum_returns t links None -> listing d (map named links).
Proof.
  intros (es & HL & Es & N & _) H C (O & -> & He).
  assert (G : grp_done t = false). { unfold grp_done. rewrite C. destruct He as [He|[He _]]; [rewrite <- He; reflexivity|congruence]. }
  pose proof (run_exact w mayc m s t N H (over_clean t O G)) as X. pose proof (over_pend m t (run_proto w mayc m s t H) O G) as Pd. rewrite <- Es in HL.
  assert (PM : Permutation (map named (w_out t)) (sentries s)). { apply (Permutation_count_occ entry_dec). intros x. specialize (X x). rewrite Pd in X. unfold cnt in X. cbn in X. lia. }
  destruct HL as [L1 L2]. split.
  - eapply Permutation_NoDup; [|exact L1]. apply Permutation_map. now symmetry.
  - intros k e. rewrite <- L2. split; intros Hi; eapply Permutation_in; try exact Hi; [assumption|now symmetry].
Qed.
Lemma uncancelled hash n W b s w d mayc m t links : (2 <= n)%nat -> (forall k, length (hash k) = n) -> valid_width W -> reached hash W b s w d ->
  wsteps w mayc (walk_start m s) t -> w_cancel t = false -> enum_returns t links None -> listing d (map named links).
Proof. intros Hn Hh Hv HR. apply facts_uncancelled. exact (reached_facts hash n W b Hn Hh Hv s w d HR). Qed.
Lemma returned_sound hash n W b s w d mayc m t links e : (2 <= n)%nat -> (forall k, length (hash k) = n) -> valid_width W -> reached hash W b s w d ->
  wsteps w mayc (walk_start m s) t -> enum_returns t links e -> NoDup (map lname links) /\ forall l, In l links -> d (lname l) = Some (lsize l, lto l).
Proof. intros Hn Hh Hv HR H (_ & -> & _). exact (walk_sound' hash n W b s w d mayc m t Hn Hh Hv HR H). Qed.

(** ** Abandoned enumerations *)

(** Once the context is cancelled nobody has to receive from the channel. *)
Lemma quiet_worker w mayc s a x b : w_workers s = a ++ x :: b -> busy x = true -> w_cancel s = true ->
  walk_crashed s \/ exists t, wstep w mayc s t /\ w_out t = w_out s.
Proof.
  destruct s as [ws nx q p run seen out c e]. cbn [w_workers w_cancel w_out]. intros -> Hb ->. pose proof (eq_refl : true || match e with Some _ => true | None => false end = true) as Hc.
  destruct x as [|ss cs|ls r k|j k|cs todo|todo| |]; try discriminate.
  - right. destruct ss as [|s ss]; eexists; (split; [first [apply S_shards_end|apply S_shard]|reflexivity]).
  - destruct ls as [|l ls]; [|right; eexists; split; [apply S_emit_drop|reflexivity]]. destruct r as [j|e0| |]; [right; eexists; split; [apply S_emit_ok|reflexivity]|right; eexists; split; [apply S_emit_err|reflexivity]| |].
    + left. exists k, Panic. split; [apply in_app_iff; right; now left|now left].
    + left. exists k, Fuel. split; [apply in_app_iff; right; now left|now right].
  - right. eexists. split; [now apply S_out_cancel|reflexivity].
  - right. destruct cs as [|n cs]; [eexists; split; [apply S_visit_end|reflexivity]|]. destruct (existsb (node_eqb n) seen) eqn:E; eexists; (split; [first [now apply S_visit_seen|now apply S_visit]|reflexivity]).
  - right. eexists. split; [now apply S_fetch_cancel|reflexivity].
  - right. eexists. split; [now apply S_done_cancel|reflexivity].
Qed.
Lemma quiet_progress w mayc s : w_cancel s = true -> walk_over s \/ walk_crashed s \/ exists t, wstep w mayc s t /\ w_out t = w_out s.
Proof.
  intros C. destruct (w_run s) eqn:R.
  - right. right. destruct s as [ws nx q p run seen out c e]. cbn in R, C. subst. eexists. split; [now apply S_stop|reflexivity].
  - destruct (find_left (w_workers s)) as [F|(a & x & b & E & Hx)]; [left; split; assumption|]. right.
    destruct (busy x) eqn:B; [exact (quiet_worker w mayc s a x b E B C)|]. destruct x; try discriminate; [|congruence]. right.
    destruct s as [ws nx q p run seen out c e]. cbn in R, E. subst. eexists. split; [apply S_exit|reflexivity].
Qed.
(** The schedules in which nobody receives any more end with all goroutines gone. *)
Lemma abandoned_ends hash n W b s w d m t : (2 <= n)%nat -> (forall k, length (hash k) = n) -> valid_width W -> reached hash W b s w d ->
  wsteps w true (walk_start m s) t -> w_cancel t = true -> walk_over t \/ exists u, wstep w true t u /\ w_out u = w_out t.
Proof.
  intros Hn Hh Hv HR H C. destruct (quiet_progress w true t C) as [?|[X|?]]; auto. exfalso. exact (walk_no_crash' hash n W b s w d true m t Hn Hh Hv HR H X).
Qed.

(** ** Repeating AddChild *)
Section Repeat.
  Variables (hash : bytes -> bytes) (n : nat) (W : Z) (b : option prefix).
  Hypothesis Hn : (2 <= n)%nat.
  Hypothesis Hh : forall k, length (hash k) = n.
  Hypothesis Hv : valid_width W.
  Notation P := (eq (proto_prefix b)).
  Variables (D : bytes) (HD : FolderPBData = Ok D).
  Notation dgood := (dgood hash n W P D).

  (** Adding a name that is already there, where sharding is not needed or possible. *)
  Lemma add_present d x w T k nd r st' z : dgood d (x, w) -> k <> [] -> d k <> None -> ~ unreachable w -> has_size (dput d k (Some (node_entry nd))) z ->
    (sharded x = false -> T <> 0 -> T <= z -> ~ crowded hash (usable n W) d) -> dAddChild hash W false T k nd (x, w) r st' -> r = Ok tt \/ r = Err EAdd /\ add_failed w (snd st').
  Proof.
    intros [H0 Hg] Hk Hd Hu Hz Hc H. destruct x as [bb|h]; cbn [fst snd] in Hg; cbn [dAddChild] in H.
    - pose proof (needsHamt hash n b Hn Hh D d bb T k nd z Hg Hz) as Hs. destruct (needsToSwitchToHAMTDir T k (Some nd) bb).
      + specialize (Hc eq_refl (proj1 (proj1 Hs eq_refl)) (proj2 (proj1 Hs eq_refl))).
        pose proof (switchToSharding_spec hash n W P Hn Hh (HPb b) Hv D w d bb Hg H0) as S. destruct (switchToSharding hash W w bb) as [h|e| |]; try contradiction.
        * destruct S as [S _]. pose proof (hAdd_spec hash n W P Hn Hh (HPb b) d h w k nd S Hk) as A. destruct (hAddChild hash k nd (h, w)) as [ra [h1 w1]]. destruct A as [A1 A2].
          destruct ra as [[]|e| |]; try contradiction; destruct H as [-> ->]; [now left|]. destruct A2 as [_ [A2|[_ [[_ [A2 _]]|[_ A2]]]]]; [right; split; [|apply A2]; now rewrite (proj1 A2)|congruence|contradiction].
        * exfalso. destruct S as [[_ S]|[_ S]]; contradiction.
      + destruct (bAddChild_spec P D d bb k nd Hg) as (b' & E & _). rewrite E in H. destruct H as [-> _]. now left.
    - destruct H as (ra & h1 & Hs & H). destruct (needsBasic_spec hash n W P Hn Hh (HPb b) w false T k (Some nd) h ra h1 d Hg Hk Hs) as (Hg1 & _ & Hr). destruct ra as [[|]|e| |]; try contradiction.
      + destruct H as (rb & h2 & Hx & H). unfold det in Hx. pose proof (switchToBasic_spec hash n W P Hh (HPb b) D HD w d h1 Hg1) as S. rewrite Hx in S. destruct S as (_ & _ & S2). destruct rb as [bb|e| |]; try contradiction.
        * destruct (bAddChild_spec P D d bb k nd S2) as (b' & E & _). rewrite E in H. destruct H as [-> _]. now left.
        * exfalso. apply Hu, S2.
      + pose proof (hAdd_spec hash n W P Hn Hh (HPb b) d h1 w k nd Hg1 Hk) as A. destruct (hAddChild hash k nd (h1, w)) as [ra [h2 w1]]. destruct A as [A1 A2]. destruct H as [-> ->].
        destruct ra as [[]|e| |]; try contradiction; [now left|]. destruct A2 as [_ [A2|[_ [[_ [A2 _]]|[_ A2]]]]]; [right; split; [|apply A2]; now rewrite (proj1 A2)|congruence|contradiction].
      + exfalso. apply Hu. now apply Hr.
  Qed.
End Repeat.
Lemma repeat_succeeds hash n W b d x w T k nd st1 r st2 : (2 <= n)%nat -> (forall k, length (hash k) = n) -> valid_width W -> dreached hash W b (x, w) d -> k <> [] ->
  dAddChild hash W false T k nd (x, w) (Ok tt) st1 -> ~ unreachable (snd st1) -> dAddChild hash W false T k nd st1 r st2 -> r = Ok tt \/ r = Err EAdd /\ add_failed (snd st1) (snd st2).
Proof.
  intros Hn Hh Hv HR Hk H1 Hu H2. destruct folder_data as [D HD]. pose proof (reached_good hash n W b Hn Hh Hv D HD _ _ HR) as G.
  destruct (dAdd_ok hash n W (eq (proto_prefix b)) Hn Hh (HPb b) Hv D HD false T k nd d x w (Ok tt) st1 G Hk H1) as (_ & _ & G1 & _). cbn [deffect q_res q_op rmap] in G1. set (d1 := dput d k (Some (node_entry nd))) in *.
  destruct st1 as [x1 w1]. assert (Hz : exists z, has_size d1 z). { destruct G1 as [_ G1]. destruct x1 as [bb|h]; cbn [fst snd] in G1; [eexists; eapply bgood_size; eauto|]. exact (good_size hash n W (eq (proto_prefix b)) Hh (HPb b) d1 _ _ G1). }
  destruct Hz as [z Hz].
  assert (Hz2 : has_size (dput d1 k (Some (node_entry nd))) z). { destruct Hz as (l & Hl & E). exists l. split; [|exact E]. eapply listing_deq; [|exact Hl]. intros y. unfold d1, dput. now destruct (bytes_eqb y k). }
  apply (add_present hash n W b Hn Hh Hv D HD d1 x1 w1 T k nd r st2 z G1 Hk); auto; [unfold d1; now rewrite dput_same|].
  intros Hs HT HTz. destruct x as [bb|h].
  - exfalso. destruct (up hash n W b Hn Hh D d bb w false T k nd z (Ok tt) (x1, w1) G Hk Hz H1) as [U _]. cbn [fst] in U. rewrite Hs in U. destruct (U eq_refl) as [_ U']. specialize (U' (conj HT HTz)). discriminate.
  - intros (k1 & k2 & Hne & E1 & E2 & _). assert (Hx : exists y, d y <> None).
    { destruct (list_eq_dec Byte.byte_eq_dec k1 k) as [->|N1]; [exists k2|exists k1]; [unfold d1 in E2; rewrite dput_other in E2 by congruence; exact E2|unfold d1 in E1; rewrite dput_other in E1 by assumption; exact E1]. }
    destruct (down hash n W b Hn Hh D d h w T k (Some nd) z (Ok tt) (x1, w1) G Hx Hk Hz H1 Hs) as (_ & _ & L). lia.
Qed.

(** ** Concrete cases *)
Definition cut (s : walk) : walk := mkWalk (w_workers s) (w_next s) (w_queue s) (w_prog s) (w_run s) (w_seen s) (w_out s) true (w_err s).
Lemma cut_ok w s t : wsteps w true s t -> w_cancel t = false -> wsteps w true s (cut t).
Proof. intros H C. econstructor; [exact H|]. destruct t as [ws nx q p run seen out c e]. cbn in C. subst c. now apply S_cancel. Qed.
(** A worker is about to send an entry when the reader has gone. *)
Definition midway : walk := cut (follow wworld [0; 0; 0]%nat (walk_start 32 wdir)).
Lemma midway_case : wsteps wworld true (walk_start 32 wdir) midway /\ w_cancel midway = true /\ w_out midway <> [] /\ ~ walk_over midway.
Proof.
  split; [apply cut_ok; [apply follow_ok|vm_compute; reflexivity]|]. split; [reflexivity|]. split; [vm_compute; discriminate|]. intros [_ H]. vm_compute in H. discriminate.
Qed.
Lemma midway_finished : exists t, wsteps wworld true (walk_start 32 wdir) t /\ w_cancel t = false /\ enum_returns t (w_out t) None /\ w_out t <> [].
Proof.
  exists (follow wworld (flat_map (fun _ => seq 0 32) (seq 0 40)) (walk_start 32 wdir)). split; [apply follow_ok|]. split; [vm_compute; reflexivity|]. split; [|vm_compute; discriminate].
  split; [|split; [reflexivity|left; vm_compute; reflexivity]]. split; [|vm_compute; reflexivity].
  match goal with |- Forall _ ?l => assert (E : l = repeat Exited 32) by (vm_compute; reflexivity); rewrite E end. apply Forall_forall. intros x Hx. now apply repeat_spec in Hx.
Qed.
Lemma stup_reach : ~ unreachable (snd stup).
Proof. intros [x H]. vm_compute in H. discriminate. Qed.
