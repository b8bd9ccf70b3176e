(** Proofs of the properties about the order in which blocks reach the store. *)
From Verif Require Import Base Pb FSNode Dag Builder Balanced Trickle Importer Reader Modifier Hamt Directory HamtExec DirExec SpecDir SpecHamt
  SpecFile SpecStore SpecStoreDir SpecAppend SpecModifier DagProofs BuilderProofs ImportProofs ModifierProofs ModifierRun ModifierFacts
  SpecReader SpecLocal AppendProofs AppendRun
  ClosedProofs ClosedModifier ClosedDir HamtWitness DirectoryProofs DirFacts DirWitness ReaderWitness.

(** ** Imports *)

Lemma balanced_blocks : forall fuel dbp fi spl w root w', balanced_import fuel dbp fi spl w = (Ok root, w') ->
  exists added, w_added w' = w_added w ++ added /\ map fst added = blocks root.
Proof.
  intros fuel dbp fi spl w root w' H. destruct (balanced_facts _ _ _ _ _ _ _ H) as ((chunks & cs & added & _ & _ & _ & _ & Ha & Hi & _) & _).
  exists added. split; [exact Ha|]. symmetry. exact Hi.
Qed.
Lemma trickle_blocks : forall fuel dbp fi spl w root w', 1 <= pr_maxlinks dbp -> (length spl < fuel)%nat ->
  trickle_import fuel dbp fi spl w = (Ok root, w') ->
  exists added, w_added w' = w_added w ++ added /\ map fst added = blocks root.
Proof.
  intros fuel dbp fi spl w root w' Hk Hf H. destruct (trickle_facts _ _ _ _ _ _ _ Hk Hf H) as ((chunks & cs & added & _ & _ & _ & _ & Ha & Hi & _) & _).
  exists added. split; [exact Ha|]. symmetry. exact Hi.
Qed.
Lemma balanced_closed : forall fuel dbp fi spl w, closed w -> closed_throughout w (snd (balanced_import fuel dbp fi spl w)).
Proof. intros. apply cgrow_throughout; [assumption|]. apply build_cgrow; [assumption|apply safe_balanced]. Qed.
Lemma trickle_closed : forall fuel dbp fi spl w, closed w -> closed_throughout w (snd (trickle_import fuel dbp fi spl w)).
Proof. intros. apply cgrow_throughout; [assumption|]. apply build_cgrow; [assumption|apply safe_trickle]. Qed.
Lemma append_closed : forall fuel rfuel dbp fi spl base w, closed w -> has_children w base ->
  closed_throughout w (snd (trickle_append fuel rfuel dbp fi spl base w)).
Proof.
  intros. apply cgrow_throughout; [assumption|]. pose proof (trickle_append_cgrow fuel rfuel dbp fi spl base w H H0) as K.
  destruct (trickle_append _ _ _ _ _ _ _) as [[r b'] w']. apply K.
Qed.

(** ** Append *)

Lemma append_fetches : forall fuel rfuel dbp fi chunks base w old,
  1 <= pr_maxlinks dbp -> (length chunks < fuel)%nat -> (height base <= rfuel)%nat ->
  file_content base old -> appendable (pr_maxlinks dbp) base ->
  source_ok BlockSizeLimit chunks -> can_add w -> (pr_nocopy dbp = true -> fi = true) ->
  (forall m, edge (pr_maxlinks dbp) (node_links base) m -> dserv_get w m = Ok m) ->
  exists root w', trickle_append fuel rfuel dbp fi (map EvData chunks) base w = (Ok root, root, w').
Proof.
  intros fuel rfuel dbp fi chunks base w old Hk Hf Hh (cs & Hfd & _) Ha Hs Hadd Hfi He.
  destruct (trickle_append fuel rfuel dbp fi (map EvData chunks) base w) as [[r b'] w'] eqn:E.
  eapply append_result in E; try eassumption; [|now rewrite map_length]. destruct r as [root|e| |]; [|exfalso..].
  - destruct E as ((-> & _) & _). eauto.
  - destruct E as (E & _). apply E. split; [eauto|]. auto.
  - exact E.
  - exact E.
Qed.
Lemma append_writes : forall fuel rfuel dbp fi spl base w root base' w' old,
  1 <= pr_maxlinks dbp -> (length spl < fuel)%nat -> (height base <= rfuel)%nat ->
  file_content base old -> appendable (pr_maxlinks dbp) base ->
  trickle_append fuel rfuel dbp fi spl base w = (Ok root, base', w') ->
  exists added, w_added w' = w_added w ++ added /\ grew (pr_maxlinks dbp) (node_links base) (node_links root) (map fst added).
Proof.
  intros fuel rfuel dbp fi spl base w root base' w' old Hk Hf Hh (cs & Hfd & _) Ha E.
  eapply append_result in E; try eassumption. destruct E as (_ & added & H1 & _ & H2). eauto.
Qed.
Lemma grew_keeps k ls ls' a : grew k ls ls' a -> forall n n' lo hi m, node_links n = ls -> node_links n' = ls' ->
  block_at n lo hi m -> ~ edge k ls m -> block_at n' lo hi m.
Proof.
  induction 1 as [ls more|ls l l' more a Hlen Hg IH]; intros n n' lo hi m En En' Hb He.
  - inversion Hb as [? pre x post bs d E1 E2 E3|? pre x post bs lo0 hi0 ? E1 E2 E3]; subst; rewrite E1, <- app_assoc in En'; cbn [app] in En';
      [eapply ba_child|eapply ba_below]; eassumption.
  - assert (X : forall pre x post, node_links n = pre ++ x :: post -> (pre = ls /\ x = l) \/ exists post', node_links n' = pre ++ x :: post').
    { intros pre x post E. rewrite E in En. destruct (rev post) as [|y r] eqn:Er.
      - apply (f_equal (@rev _)) in Er. rewrite rev_involutive in Er. subst post. apply app_inj_tail in En as (-> & ->). now left.
      - apply (f_equal (@rev _)) in Er. rewrite rev_involutive in Er. subst post. cbn [rev] in En. rewrite app_comm_cons, app_assoc in En.
        apply app_inj_tail in En as (<- & _). right. rewrite En', <- app_assoc. cbn [app]. eauto. }
    inversion Hb as [? pre x post bs d E1 E2 E3|? pre x post bs lo0 hi0 ? E1 E2 E3]; subst n0; try subst m0; destruct (X _ _ _ E1) as [(-> & ->)|(post' & E')];
      try (subst; first [eapply ba_child; eassumption|eapply ba_below; eassumption]).
    + exfalso. subst. apply He. now constructor.
    + subst lo hi. eapply ba_below; [exact En'|exact E2|]. eapply IH; [reflexivity|reflexivity|exact E3|]. intros Hx. apply He. now apply ed_below.
Qed.
Lemma append_keeps : forall fuel rfuel dbp fi spl base w root base' w' old lo hi m,
  1 <= pr_maxlinks dbp -> (length spl < fuel)%nat -> (height base <= rfuel)%nat ->
  file_content base old -> appendable (pr_maxlinks dbp) base ->
  trickle_append fuel rfuel dbp fi spl base w = (Ok root, base', w') ->
  block_at base lo hi m -> ~ edge (pr_maxlinks dbp) (node_links base) m -> block_at root lo hi m.
Proof.
  intros fuel rfuel dbp fi spl base w root base' w' old lo hi m Hk Hf Hh Hc Ha E.
  destruct (append_writes _ _ _ _ _ _ _ _ _ _ _ Hk Hf Hh Hc Ha E) as (added & _ & Hg). eapply grew_keeps; [exact Hg|reflexivity..].
Qed.

(** ** The modifier *)

Lemma run_closed split wbsize ops : forall s t s', closed (snd s) -> J s -> mod_run split wbsize ops s = Some (t, s') -> cgrow (snd s) (snd s') /\ J s'.
Proof.
  induction ops as [|op r IH]; intros s t s' Hc HJ H; cbn [mod_run] in H; [injection H as <- <-; split; [apply cgrow_refl|exact HJ]|].
  destruct (mod_step split wbsize op s) as [[o s1]|] eqn:E; [|discriminate]. destruct (mod_run split wbsize r s1) as [[h s2]|] eqn:E2; [|discriminate].
  injection H as _ <-. destruct (call_closed split wbsize op s Hc HJ) as (G & K). pose proof (mod_step_after _ _ _ _ _ _ E) as Ea. rewrite Ea in *.
  destruct (IH s1 h s2) as (G2 & H2); [eapply cgrow_closed; eassumption|apply K; right; eauto|exact E2|]. split; [eapply cgrow_trans; eassumption|exact H2].
Qed.
Lemma history_closed split wbsize ops : forall s, closed (snd s) -> J s -> can_add (snd s) ->
  cgrow (snd s) (snd (mod_history split wbsize ops s)) /\ J (mod_history split wbsize ops s).
Proof.
  induction ops as [|op r IH]; intros s Hc HJ Ha; [split; [apply cgrow_refl|exact HJ]|].
  destruct (call_closed split wbsize op s Hc HJ) as (G & K). change (mod_history split wbsize (op :: r) s) with (mod_history split wbsize r (mod_after split wbsize op s)).
  destruct (IH (mod_after split wbsize op s)) as (G2 & H2); [eapply cgrow_closed; eassumption|apply K; now left|eapply wgrow_can_add; [apply G|exact Ha]|].
  split; [eapply cgrow_trans; eassumption|exact H2].
Qed.
Lemma J_new root w : has_children w root -> J (NewDagModifier root, w).
Proof. intros H. exact H. Qed.
Lemma closed_reach w n : closed w -> forall m, reach n m -> stored w n = true -> stored w m = true.
Proof. intros Hc m H. induction H as [n|n l m Hl _ IH]; intros Hn; [exact Hn|]. apply IH. eapply Hc; eassumption. Qed.

Lemma modifier_closed : forall split wbsize ops op root w t s, closed w -> has_children w root ->
  mod_run split wbsize ops (NewDagModifier root, w) = Some (t, s) -> closed_throughout w (snd (mod_after split wbsize op s)).
Proof.
  intros split wbsize ops op root w t s Hc Hr H. destruct (run_closed _ _ _ (NewDagModifier root, w) _ _ Hc (J_new _ _ Hr) H) as (G & HJ). cbn [snd] in G.
  apply cgrow_throughout; [exact Hc|]. eapply cgrow_trans; [exact G|]. apply call_closed; [eapply cgrow_closed; eassumption|exact HJ].
Qed.
Lemma modifier_closed_errors : forall split wbsize ops root w, closed w -> has_children w root -> can_add w ->
  closed_throughout w (snd (mod_history split wbsize ops (NewDagModifier root, w))).
Proof.
  intros split wbsize ops root w Hc Hr Ha. apply cgrow_throughout; [exact Hc|]. apply (history_closed split wbsize ops (NewDagModifier root, w) Hc (J_new _ _ Hr) Ha).
Qed.
Lemma run_last split wbsize ops : forall s h op o w s', mod_run split wbsize ops s = Some (h ++ [(op, o, w)], s') -> w = snd s' /\ exists s1, mod_step split wbsize op s1 = Some (o, s').
Proof.
  induction ops as [|op0 r IH]; intros s h op o w s' H; cbn [mod_run] in H; [destruct h; discriminate|].
  destruct (mod_step split wbsize op0 s) as [[o1 s1]|] eqn:E; [|discriminate]. destruct (mod_run split wbsize r s1) as [[h2 s2]|] eqn:E2; [|discriminate].
  destruct h as [|x h]; cbn [app] in H.
  - injection H as <- <- <- -> <-. destruct r as [|op2 r]; [cbn in E2; injection E2 as <-; eauto|]. exfalso. cbn [mod_run] in E2.
    destruct (mod_step split wbsize op2 s1) as [[? ?]|]; [|discriminate]. destruct (mod_run _ _ _ _) as [[? ?]|]; discriminate.
  - injection H as _ -> <-. eapply IH. exact E2.
Qed.
Lemma modifier_complete : forall split wbsize ops root w h n w' s, closed w -> has_children w root ->
  mod_run split wbsize ops (NewDagModifier root, w) = Some (h ++ [(MGetNode, BNode n, w')], s) ->
  forall l m, In l (node_links n) -> reach (lto l) m -> stored w' m = true.
Proof.
  intros split wbsize ops root w h n w' s Hc Hr H. destruct (run_closed _ _ _ (NewDagModifier root, w) _ _ Hc (J_new _ _ Hr) H) as (G & HJ). cbn [snd] in G.
  destruct (run_last _ _ _ _ _ _ _ _ _ H) as (-> & s1 & E). cbn [mod_step] in E. destruct (mGetNode split s1) as [[n0| | |] s2] eqn:Eg; try discriminate.
  injection E as <- <-. unfold mGetNode in Eg. rewrite bind_eq in Eg. destruct (Sync split s1) as [[[]| | |] s3]; try discriminate.
  destruct (m_node (fst s3)) as [n1|] eqn:En; [|discriminate]. injection Eg as -> <-. unfold J in HJ. rewrite En in HJ.
  intros l m Hl Hm. eapply closed_reach; [eapply cgrow_closed; eassumption|exact Hm|]. now apply HJ.
Qed.

(** The store holds just the file; the first Add fails. *)
Definition just_abcde (ok : nat -> bool) : world :=
  mkWorld (fun n => node_eqb n abcde || node_eqb n leaf_abc || node_eqb n leaf_de) [] 0 ok (fun _ => true).
Lemma just_closed ok : closed (just_abcde ok).
Proof.
  intros n Hn l Hl. unfold stored in *. cbn [just_abcde w_has w_added existsb] in *. rewrite orb_false_r in *.
  apply orb_prop in Hn. destruct Hn as [Hn|Hn]; [apply orb_prop in Hn; destruct Hn as [Hn|Hn]|]; apply node_eqb_eq in Hn; subst n; [|destruct Hl..].
  destruct Hl as [<-|[<-|[]]]; vm_compute; reflexivity.
Qed.
Lemma just_children ok : has_children (just_abcde ok) abcde.
Proof. intros l [<-|[<-|[]]]; vm_compute; reflexivity. Qed.
Definition torn_run := mod_run bytewise wb [MTruncate 9; MGetNode]
  (mod_history bytewise wb [MTruncate 8] (NewDagModifier abcde, just_abcde (fun i => negb (Nat.eqb i 0)))).
Definition torn : modifier * world := match torn_run with Some (_, s) => s | None => (NewDagModifier abcde, just_abcde (fun _ => true)) end.
Definition torn_node : node := match torn_run with Some ([_; (_, BNode n, _)], _) => n | _ => abcde end.
Definition torn_link : link := hd (nolink abcde) (filter (fun l => negb (stored (snd torn) (lto l))) (node_links torn_node)).
Lemma modifier_closed_false : exists split wbsize ops root w, closed w /\ has_children w root /\ stored w root = true /\
  exists n s, mod_run split wbsize [MTruncate 9; MGetNode] (mod_history split wbsize ops (NewDagModifier root, w)) =
      Some ([(MTruncate 9, BDone, snd s); (MGetNode, BNode n, snd s)], s) /\
    stored (snd s) n = true /\ (exists l, In l (node_links n) /\ stored (snd s) (lto l) = false) /\ ~ closed (snd s).
Proof.
  exists bytewise, wb, [MTruncate 8], abcde, (just_abcde (fun i => negb (Nat.eqb i 0))). split; [apply just_closed|]. split; [apply just_children|].
  split; [vm_compute; reflexivity|].
  assert (X : exists n s, mod_run bytewise wb [MTruncate 9; MGetNode] (mod_history bytewise wb [MTruncate 8] (NewDagModifier abcde, just_abcde (fun i => negb (Nat.eqb i 0)))) =
      Some ([(MTruncate 9, BDone, snd s); (MGetNode, BNode n, snd s)], s) /\ stored (snd s) n = true /\ exists l, In l (node_links n) /\ stored (snd s) (lto l) = false).
  { exists torn_node, torn. split; [vm_compute; reflexivity|]. split; [vm_compute; reflexivity|]. exists torn_link. split; vm_compute; tauto. }
  destruct X as (n & s & H1 & H2 & l & H3 & H4). exists n, s. split; [exact H1|]. split; [exact H2|]. split; [eauto|].
  intros Hc. rewrite (Hc n H2 l H3) in H4. discriminate.
Qed.

(** ** Directories *)

Lemma new_shard_ok W b s w : new_dir W b = Ok s -> sokw w s.
Proof.
  unfold new_dir, NewShard. destruct (NewShardValue W [] None) as [s0| | |] eqn:E; cbn; try discriminate. intros [= <-].
  apply sok_builder. eapply sok_new; [|exact E]. discriminate.
Qed.
Lemma hamt_closed : forall hash W b s w ops, closed w ->
  new_dir W b = Ok s \/ (exists n, NewHamtFromDag n = Ok s /\ has_children w n) ->
  (forall a op c, ops = a ++ op :: c -> given_shard (snd (snd (hrun hash a (s, w)))) op) ->
  closed_throughout w (snd (snd (hrun hash ops (s, w)))).
Proof.
  intros hash W b s w ops Hc Hs Hg. apply cgrow_throughout; [exact Hc|]. apply hrun_closed; [exact Hc| |exact Hg].
  destruct Hs as [Hs|(n & Hn & Hl)]; [eapply new_shard_ok; exact Hs|eapply fromdag_closed; eassumption].
Qed.
Lemma hamt_complete : forall hash W b s w ops n w', closed w ->
  new_dir W b = Ok s \/ (exists n, NewHamtFromDag n = Ok s /\ has_children w n) ->
  (forall a op c, ops = a ++ op :: c -> given_shard (snd (snd (hrun hash a (s, w)))) op) ->
  Node (fst (snd (hrun hash ops (s, w)))) (snd (snd (hrun hash ops (s, w)))) = (Ok n, w') ->
  forall m, reach n m -> stored w' m = true.
Proof.
  intros hash W b s w ops n w' Hc Hs Hg Hn m Hm.
  assert (Hs' : sokw w s) by (destruct Hs as [Hs|(n0 & Hn0 & Hl)]; [eapply new_shard_ok; exact Hs|eapply fromdag_closed; eassumption]).
  destruct (hrun_closed hash ops s w Hc Hs' Hg) as (G & H). destruct (Node_cgrow _ _ (cgrow_closed _ _ Hc G) H) as (G2 & K).
  rewrite Hn in G2, K. cbn [fst snd] in G2, K. eapply closed_reach; [|exact Hm|now apply K]. eapply cgrow_closed; [|exact G2]. eapply cgrow_closed; eassumption.
Qed.
(** A BasicDirectory does not store what is added to it. *)
Definition unstored : list (Z * dop) := [(1000, DAdd na ra); (1000, DReload)].
Definition unstored_run := dfollow hash8 256 unstored (dnew, astore).
Definition unstored_end : directory * world := match unstored_run with Some (_, st) => st | None => (dnew, astore) end.
Definition unstored_hist : list dobs := match unstored_run with Some (h, _) => h | None => [] end.
Lemma astore_closed : closed astore.
Proof. intros n Hn. discriminate. Qed.
Lemma directory_closed_false : exists hash width mayc d w cs h st, closed w /\ NewDirectory None = Ok d /\ drun hash width mayc (d, w) cs h st /\
  Forall (fun o => match q_op o with DAdd _ n | DStore n => has_children (q_w o) n | _ => True end) h /\ map q_res h = [Ok VUnit; Ok VUnit] /\ ~ closed (snd st).
Proof.
  exists hash8, 256, false, dnew, astore, unstored, unstored_hist, unstored_end. split; [exact astore_closed|]. split; [exact dnew_ok|].
  split; [apply dfollow_ok; vm_compute; reflexivity|]. split; [|split; [vm_compute; reflexivity|]].
  - constructor; [intros l []|]. constructor; [exact Logic.I|constructor].
  - set (r := match w_added (snd unstored_end) with [(n, _)] => n | _ => ra end). intros H.
    assert (X : stored (snd unstored_end) (lto (hd (nolink ra) (node_links r))) = true); [|vm_compute in X; discriminate].
    apply (H r); [vm_compute; reflexivity|]. vm_compute. now left.
Qed.
Lemma directory_closed : forall hash width mayc d w cs h st, closed w ->
  (exists b, NewDirectory b = Ok d) \/ (exists n, NewDirectoryFromNode n = Ok d /\ has_children w n) ->
  drun hash width mayc (d, w) cs h st -> Forall (fun o => given_dir (q_w o) (q_op o)) h -> closed_throughout w (snd st).
Proof.
  intros hash width mayc d w cs h st Hc Hd Hr Hf. apply cgrow_throughout; [exact Hc|]. apply (drun_closed _ _ _ _ _ _ _ Hr); [exact Hc| |exact Hf].
  destruct Hd as [(b & Hd)|(n & Hn & Hl)].
  - unfold NewDirectory, newEmptyBasicDirectory in Hd. destruct FolderPBData; cbn in Hd; try discriminate. injection Hd as <-. intros l [].
  - eapply fromnode_ok; eassumption.
Qed.

(** ** Cases *)

Definition two_adds : world := mkWorld (fun _ => false) [] 0 (fun i => (i <? 2)%nat) (fun _ => true).
Lemma two_adds_closed : closed two_adds.
Proof. intros n Hn. discriminate. Qed.
Lemma edge_inv d k ls m : edge k ls m -> (m = lto (last ls d) \/ edge k (node_links (lto (last ls d))) m) /\ (k <? zlen ls) = true.
Proof. intros H. inversion H; subst; rewrite last_last; (split; [auto|now apply Z.ltb_lt]). Qed.
(** Given: a shard history in which everything given is there. *)
Fixpoint all_given (hash : bytes -> bytes) (ops : list hop) (sw : shard * world) : Prop :=
  match ops with [] => True | op :: r => given_shard (snd sw) op /\ all_given hash r (snd (hexec hash op sw)) end.
Lemma all_given_ok hash ops : forall sw, all_given hash ops sw -> forall a op c, ops = a ++ op :: c -> given_shard (snd (snd (hrun hash a sw))) op.
Proof.
  induction ops as [|o r IH]; intros sw H a op c E; [destruct a; discriminate|]. destruct H as (H1 & H2). destruct a as [|x a]; cbn [app] in E; injection E as -> ->.
  - exact H1.
  - specialize (IH _ H2 a op c eq_refl). cbn [hrun]. destruct (hexec hash x sw) as [v sw1]. cbn [snd] in IH. now destruct (hrun hash a sw1).
Qed.
Lemma fresh_closed w : (forall n, w_has w n = false) -> forallb (fun x => forallb (fun l => stored w (lto l)) (node_links (fst x))) (w_added w) = true -> closed w.
Proof.
  intros Hh H n Hn l Hl. unfold stored in Hn. rewrite Hh in Hn. cbn [orb] in Hn. apply existsb_exists in Hn as (x & Hx & E). apply node_eqb_eq in E. subst n.
  exact (proj1 (forallb_forall _ _) (proj1 (forallb_forall _ _) H x Hx) l Hl).
Qed.
Lemma children_check w n : forallb (fun l => stored w (lto l)) (node_links n) = true -> has_children w n.
Proof. intros H l Hl. exact (proj1 (forallb_forall _ _) H l Hl). Qed.
Lemma given_check h : forallb (fun o => match q_op o with DAdd _ n => stored (q_w o) (seal n) | DStore n => forallb (fun l => stored (q_w o) (lto l)) (node_links n) | _ => true end) h = true ->
  Forall (fun o => given_dir (q_w o) (q_op o)) h.
Proof.
  intros H. apply Forall_forall. intros o Ho. pose proof (proj1 (forallb_forall _ _) H o Ho) as K. cbv beta in K. unfold given_dir. destruct (q_op o); try exact Logic.I; [exact K|].
  now apply children_check.
Qed.
