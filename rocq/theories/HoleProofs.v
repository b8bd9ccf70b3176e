(** Writing past the end, growing and writing, and seeking and writing are the same. *)
From Verif Require Import Base Pb PbProofs FSNode FSNodeProofs Dag DagProofs Builder Balanced Trickle Importer Reader Modifier
  SpecFile SpecAppend SpecModifier BuilderProofs BalancedProofs ImportProofs AppendProofs AppendRun AppendSame SpecShare ShareProofs ReaderWitness ModifierRun ModifierProofs TruncateProofs ModifierFacts ShortenProofs TraceProofs RewriteProofs DetProofs LeakProofs SpecHole.

(** ** The offset of the next write is not used when buffered data is written back *)

Definition moved (o : Z) {A} (x : res A * mst) : res A * mst := (fst x, (m_set_off o (fst (snd x)), snd (snd x))).
Definition blind {A} (f : M mst A) : Prop := forall o m w, f (m_set_off o m, w) = moved o (f (m, w)).
Lemma bind_blind {A B} (f : M mst A) (g : A -> M mst B) : blind f -> (forall a, blind (g a)) -> blind (bind f g).
Proof.
  intros Hf Hg o m w. unfold bind. rewrite Hf. destruct (f (m, w)) as [[a|e| |] [m' w']]; cbn [moved fst snd]; try reflexivity. apply Hg.
Qed.
Lemma ret_blind {A} (a : A) : blind (ret a). Proof. intros o m w. reflexivity. Qed.
Lemma lift_blind {A} (r : res A) : blind (lift r). Proof. intros o m w. reflexivity. Qed.
Lemma if_blind {A} (b : bool) (f g : M mst A) : blind f -> blind g -> blind (if b then f else g).
Proof. now destruct b. Qed.
Lemma cur_node_blind : blind cur_node. Proof. intros o m w. unfold cur_node. cbn [fst m_set_off m_node]. now destruct (m_node m). Qed.
Lemma mod_add_blind n : blind (mod_add n). Proof. intros o m w. unfold mod_add. cbn [fst snd]. now destruct (dserv_add n None w). Qed.
Lemma change_off o n n' m : m_change_node n n' (m_set_off o m) = m_set_off o (m_change_node n n' m).
Proof. now destruct m. Qed.
Lemma append_cur_blind ch : blind (append_cur ch).
Proof.
  intros o m w. unfold append_cur. cbn [fst snd m_set_off m_node]. destruct (m_node m) as [n|]; [|reflexivity]. change (appendData (m_set_off o m)) with (appendData m).
  destruct (appendData m n ch w) as [[r n'] w']. now rewrite change_off.
Qed.
Lemma expand_blind s : blind (expandSparse s).
Proof. unfold expandSparse. apply bind_blind; [apply append_cur_blind|]. intros n. apply mod_add_blind. Qed.
Lemma modify_cur_blind : blind modify_cur.
Proof.
  intros o m w. unfold modify_cur. cbn [fst snd m_set_off m_node m_buf m_start]. destruct (m_node m) as [n|]; [|reflexivity]. destruct (m_buf m) as [b|]; [|reflexivity].
  destruct (modifyDag _ _ _ _ _) as [[[r b'] w'] n']. now destruct m.
Qed.
Lemma get_cur_blind k : blind (get_cur k).
Proof. intros o m w. unfold get_cur. cbn [fst snd]. destruct (dserv_get w k); now destruct m. Qed.
Lemma append_buf_blind split b : blind (append_buf split b).
Proof.
  intros o m w. unfold append_buf. rewrite append_cur_blind. destruct (append_cur (split b) (m, w)) as [[n|e| |] [m' w']]; cbn [moved fst snd]; now destruct m'.
Qed.
Lemma get_mod_blind {A} (f : modifier -> M mst A) : (forall o m w, f (m_set_off o m) (m_set_off o m, w) = moved o (f m (m, w))) -> blind (bind get_mod f).
Proof. intros H o m w. unfold bind, get_mod. cbn [fst]. apply H. Qed.

Lemma Sync_blind split : blind (Sync split).
Proof.
  unfold Sync. apply get_mod_blind. intros o m w. cbn [m_set_off m_buf m_start]. destruct (m_buf m) as [buf|]; [|reflexivity]. revert o m w.
  enough (H : forall st, blind (do _ <- upd_mod (m_set_read None) ;; do n0 <- cur_node ;; do fs <- lift (fileSize n0) ;; do _ <- (if fs <? st then expandSparse (i64 (st - fs)) else ret tt) ;;
        do k <- modify_cur ;; do _ <- get_cur k ;; do m1 <- get_mod ;;
        do _ <- (match m_buf m1 with Some (x :: buf) => do nn <- append_buf split (x :: buf) ;; mod_add nn | _ => ret tt end) ;;
        upd_mod (fun m => m_set_buf None (m_set_start (u64 (m_start m + zlen buf)) m)))) by (intros o m w; exact (H (m_start m) o m w)).
  intros st. apply bind_blind; [intros o m w; now destruct m|]. intros []. apply bind_blind; [apply cur_node_blind|]. intros n0. apply bind_blind; [apply lift_blind|]. intros fs.
  apply bind_blind; [apply if_blind; [apply expand_blind|apply ret_blind]|]. intros []. apply bind_blind; [apply modify_cur_blind|]. intros k. apply bind_blind; [apply get_cur_blind|]. intros [].
  apply get_mod_blind. intros o m w. cbn [m_set_off m_buf].
  enough (H : forall x : option bytes, blind (do _ <- (match x with Some (x :: buf) => do nn <- append_buf split (x :: buf) ;; mod_add nn | _ => ret tt end) ;;
        upd_mod (fun m => m_set_buf None (m_set_start (u64 (m_start m + zlen buf)) m)))) by apply H.
  intros x. apply bind_blind; [|intros []; intros o' m' w'; now destruct m']. destruct x as [[|x r]|]; [apply ret_blind| |apply ret_blind]. apply bind_blind; [apply append_buf_blind|]. intros nn. apply mod_add_blind.
Qed.
Lemma mGetNode_blind split : blind (mGetNode split).
Proof. unfold mGetNode. apply bind_blind; [apply Sync_blind|]. intros _ o m w. cbn [fst m_set_off m_node]. now destruct (m_node m). Qed.

(** ** The three ways *)

Definition finish split wbsize (b : bytes) : M mst node := do _ <- (if wbsize <? zlen b then Sync split else ret tt) ;; mGetNode split.

Section past.
  Context (split : bytes -> list bytes) (wbsize : Z) (b : bytes) (off : Z) (n : node) (c : bytes) (w : world).
  Hypothesis Hf : file_content n c. Hypothesis Hg : growable K n. Hypothesis Hc : zlen c < off. Hypothesis Ho : off + zlen b < 9223372036854775808.

  Lemma size_is : mSize (NewDagModifier n, w) = (Ok (zlen c), (NewDagModifier n, w)).
  Proof.
    pose proof (zlen_nonneg c). pose proof (zlen_nonneg b). destruct Hf as (cs & Hcs & Ec). unfold mSize, bind, cur_node, lift, get_mod. cbn [fst snd NewDagModifier m_node m_buf]. rewrite (fileSize_dag n cs Hcs) by (rewrite <- Ec; lia).
    cbn [fst m_buf]. unfold ret. rewrite <- Ec. now rewrite i64_small by (unfold two63; lia).
  Qed.
  Let X := expandSparse (off - zlen c) (NewDagModifier n, w).
  Lemma X_is : match X with
    | (Ok _, (m', w')) => exists n1, m' = m_set_node (Some n1) (NewDagModifier n) /\ (exists c1, file_content n1 c1 /\ zlen c1 = off) /\ node_prefix n1 = node_prefix n
    | (Err _, _) => True
    | _ => False end.
  Proof.
    pose proof (zlen_nonneg c). pose proof (expand_spec (NewDagModifier n) w n c (off - zlen c) eq_refl Hf Hg ltac:(lia)) as E. fold X in E. destruct X as [[u|e| |] [m' w']]; try contradiction; [|exact Logic.I].
    destruct E as (n1 & -> & F & _ & _ & _ & P & _). exists n1. split; [now apply change_none|]. split; [|exact P]. eexists. split; [exact F|]. rewrite zlen_app. unfold zeros. rewrite zlen_repeat. lia.
  Qed.

  Lemma truncate_is : truncate_to split off n w = match X with (Ok _, s) => mGetNode split s | (Err e, s) => (Err e, s) | (Panic, s) => (Panic, s) | (Fuel, s) => (Fuel, s) end.
  Proof.
    pose proof (zlen_nonneg c). pose proof (zlen_nonneg b). unfold truncate_to, mTruncate. unfold bind at 1. rewrite Sync_none by reflexivity. unfold bind at 1. rewrite size_is. replace (off =? zlen c) with false by lia. replace (zlen c <? off) with true by lia.
    rewrite i64_small by (unfold two63; lia). reflexivity.
  Qed.
  Lemma mWrite_is n1 m1 w1 : m_node m1 = Some n1 -> m_buf m1 = None -> m_start m1 = off -> 
    mWrite split wbsize b (m1, w1) = (do _ <- (if wbsize <? zlen b then Sync split else ret tt) ;; ret (zlen b)) (mkMod (Some n1) off (u64 (m_off m1 + zlen b)) (Some b) (m_prefix m1) (m_raw m1) None, w1).
  Proof.
    intros E1 E2 E3. destruct m1 as [N0 S0 O0 B0 P0 R0 D0]. cbn [m_node m_buf m_start] in E1, E2, E3. subst. unfold mWrite. unfold bind at 1, upd_mod at 1. cbn [fst snd m_set_read m_set_buf m_set_off m_buf m_off m_start m_node m_prefix m_raw]. cbn [app].
    unfold bind at 1, get_mod at 1. cbn [fst m_buf]. reflexivity.
  Qed.
  Lemma write_is : write_back split wbsize b off n w = match X with
    | (Ok _, (m', w')) => match m_node m' with Some n1 => finish split wbsize b (written n1 off b, w') | None => (Panic, (m', w')) end
    | (Err e, s) => (Err e, s) | (Panic, s) => (Panic, s) | (Fuel, s) => (Fuel, s) end.
  Proof.
    pose proof (zlen_nonneg c). pose proof (zlen_nonneg b). pose proof X_is as XI. unfold write_back, WriteAt. unfold bind at 1, get_mod at 1. cbn [fst NewDagModifier m_buf m_off]. rewrite (u64_small off) by (unfold two64; lia). replace (off =? 0) with false by lia.
    unfold bind at 1. unfold bind at 1. rewrite size_is. replace (zlen c <? off) with true by lia. rewrite i64_small by (unfold two63; lia). unfold bind at 1. fold X. destruct X as [[u|e| |] [m' w']]; try contradiction; [|reflexivity].
    destruct XI as (n1 & -> & _ & P). unfold bind at 1. rewrite Sync_none by reflexivity. unfold upd_mod. cbn [fst snd]. rewrite (mWrite_is n1) by reflexivity. cbn [m_set_start m_set_node NewDagModifier m_off m_prefix m_raw m_node].
    rewrite u64_small by (unfold two64; lia). unfold finish, written. cbn [NewDagModifier m_prefix m_raw]. rewrite P. unfold bind. destruct ((if wbsize <? zlen b then Sync split else ret tt) _) as [[u'|e| |] s]; reflexivity.
  Qed.
  Lemma grow_is : grow_write split wbsize b off n w = match X with
    | (Ok _, (m', w')) => match m_node m' with Some n1 => finish split wbsize b (written n1 off b, w') | None => (Panic, (m', w')) end
    | (Err e, s) => (Err e, s) | (Panic, s) => (Panic, s) | (Fuel, s) => (Fuel, s) end.
  Proof.
    pose proof X_is as XI. unfold grow_write. rewrite truncate_is. destruct X as [[u|e| |] [m' w']]; try contradiction; [|reflexivity]. destruct XI as (n1 & -> & (c1 & F & <-) & P).
    unfold mGetNode, bind. rewrite Sync_none by reflexivity. cbn [fst m_set_node m_node]. unfold write_back. rewrite (WriteAt_end _ _ _ _ _ _ F Ho). unfold finish, bind.
    destruct ((if wbsize <? zlen b then Sync split else ret tt) _) as [[u'|e| |] s]; reflexivity.
  Qed.
  Lemma seek_is : outcome (seek_write split wbsize b off n w) = outcome match X with
    | (Ok _, (m', w')) => match m_node m' with Some n1 => finish split wbsize b (written n1 off b, w') | None => (Panic, (m', w')) end
    | (Err e, s) => (Err e, s) | (Panic, s) => (Panic, s) | (Fuel, s) => (Fuel, s) end.
  Proof.
    pose proof (zlen_nonneg c). pose proof (zlen_nonneg b). pose proof X_is as XI. unfold seek_write. unfold bind at 1. unfold mSeek. unfold bind at 1. rewrite Sync_none by reflexivity. unfold bind at 1. rewrite size_is. unfold bind at 1, get_mod at 1. unfold bind at 1.
    change (0 =? 1) with false. change (0 =? 0) with true. cbv iota. unfold ret at 1. cbv iota beta. rewrite (u64_small off) by (unfold two64; lia). rewrite (i64_small off) by (unfold two63; lia). replace (zlen c <? off) with true by lia. rewrite i64_small by (unfold two63; lia). unfold bind at 1. fold X. destruct X as [[u|e| |] [m' w']]; try contradiction; [|reflexivity].
    destruct XI as (n1 & -> & _ & P). unfold bind at 1, upd_mod at 1. unfold bind at 1, get_mod at 1. cbn [fst snd m_set_start m_set_off m_set_node NewDagModifier m_read]. unfold bind at 1. cbn [ret].
    unfold bind at 1. rewrite (mWrite_is n1) by reflexivity. cbn [m_set_node m_node].
    assert (B : blind (finish split wbsize b)) by (unfold finish; apply bind_blind; [apply if_blind; [apply Sync_blind|apply ret_blind]|]; intros []; apply mGetNode_blind).
    specialize (B (u64 (off + zlen b)) (written n1 off b) w').
    transitivity (outcome (finish split wbsize b (m_set_off (u64 (off + zlen b)) (written n1 off b), w'))); [|now rewrite B].
    assert (Q : m_set_off (u64 (off + zlen b)) (written n1 off b) = mkMod (Some n1) off (u64 (off + zlen b)) (Some b) (m_prefix (NewDagModifier n)) (m_raw (NewDagModifier n)) None).
    { unfold written, m_set_off, NewDagModifier. cbn [m_node m_start m_buf m_prefix m_raw m_read]. now rewrite P. }
    rewrite Q. unfold m_set_start, m_set_off, m_set_node. cbn [m_node m_start m_off m_buf m_prefix m_raw m_read]. unfold finish, bind. destruct ((if wbsize <? zlen b then Sync split else ret tt) _) as [[u'|e| |] s]; reflexivity.
  Qed.
End past.

Lemma past_end : forall split wbsize b off n c w, file_content n c -> growable K n -> zlen c < off -> off + zlen b < 9223372036854775808 ->
  write_back split wbsize b off n w = grow_write split wbsize b off n w /\ outcome (seek_write split wbsize b off n w) = outcome (write_back split wbsize b off n w).
Proof. intros split wbsize b off n c w Hf Hg Hc Ho. rewrite (write_is split wbsize b off n c w Hf Hg Hc Ho). rewrite (grow_is split wbsize b off n c w Hf Hg Hc Ho). split; [reflexivity|]. apply seek_is; assumption. Qed.

(** ** Zeros *)

Lemma zeros_inv a b k : a ++ b = zeros k -> a = zeros (zlen a) /\ b = zeros (zlen b).
Proof.
  unfold zeros. intros E. assert (L : (length a + length b)%nat = Z.to_nat k) by (rewrite <- app_length, E; apply repeat_length). unfold zlen. rewrite !Nat2Z.id. rewrite <- L, repeat_app in E.
  apply AppendSame.app_inj_len in E; [exact E|]. now rewrite repeat_length.
Qed.
Lemma cut_zeros l k : cut_every 4096 l -> concat l = zeros k -> 0 < k -> l = zero_chunks k.
Proof.
  intros (full & last & -> & Hf & Hl) E Hk. rewrite concat_app in E. assert (Lk : zlen (concat full ++ concat last) = k) by (rewrite E; unfold zeros; rewrite zlen_repeat; lia).
  destruct (zeros_inv _ _ _ E) as (E1 & E2). clear E.
  assert (F : full = repeat (zeros 4096) (length full) /\ zlen (concat full) = 4096 * Z.of_nat (length full)).
  { clear - Hf E1. induction Hf as [|x r Hx Hr IH]; [split; reflexivity|]. cbn [concat] in E1. destruct (zeros_inv _ _ _ E1) as (X & Y). destruct (IH Y) as (I1 & I2). cbn [length repeat concat]. rewrite zlen_app, Hx, I2. split; [|lia]. rewrite Hx in X. f_equal; [exact X|exact I1]. }
  destruct F as (F1 & F2). rewrite zlen_app, F2 in Lk. unfold zero_chunks. replace (k <=? 0) with false by lia. destruct Hl as [->|(x & -> & Hx)].
  - cbn [concat] in Lk. change (zlen []) with 0 in Lk. replace (k mod 4096) with 0 by (subst k; rewrite Z.add_0_r, Z.mul_comm, Z.mod_mul; lia). replace (k / 4096) with (Z.of_nat (length full)) by (subst k; rewrite Z.add_0_r, Z.mul_comm, Z.div_mul; lia).
    rewrite Nat2Z.id. change (0 =? 0) with true. cbv iota. rewrite <- F1. reflexivity.
  - cbn [concat] in Lk, E2. rewrite app_nil_r in Lk, E2. assert (Q : k / 4096 = Z.of_nat (length full)) by (symmetry; apply (Z.div_unique k 4096 _ (zlen x)); lia). assert (R : k mod 4096 = zlen x) by (symmetry; apply (Z.mod_unique k 4096 (Z.of_nat (length full))); lia).
    rewrite Q, R. replace (zlen x =? 0) with false by lia. rewrite Nat2Z.id, <- F1, <- E2. reflexivity.
Qed.

Lemma shape_refl : forall n, same_shape n n.
Proof.
  induction n as [p d|p x ls IH] using DagProofs.node_ind'; constructor; try reflexivity. induction IH; constructor; assumption.
Qed.
Lemma same_append : forall split d n c w1 n1 s1 split2 wbsize w2 n2 s2, chunker_ok split2 -> file_content n c -> growable K n -> canonical_leaves n -> zlen c < d < 9223372036854775808 ->
  truncate_to split d n w1 = (Ok n1, s1) -> write_back split2 wbsize (repeat Byte.x00 (Z.to_nat (d - zlen c))) (zlen c) n w2 = (Ok n2, s2) ->
  cut_every 4096 (split2 (repeat Byte.x00 (Z.to_nat (d - zlen c)))) -> n1 = n2.
Proof.
  intros split d n c w1 n1 s1 split2 wb w2 n2 s2 Hs Hf Hg Hc Hd E1 E2 Hz. pose proof (zlen_nonneg c) as H0. fold (zeros (d - zlen c)) in *.
  assert (Lz : zlen (zeros (d - zlen c)) = d - zlen c) by (unfold zeros; rewrite zlen_repeat; lia).
  assert (Hne : zeros (d - zlen c) <> []) by (intros X; rewrite X in Lz; change (zlen []) with 0 in Lz; lia).
  destruct (grow_inv _ _ _ _ _ _ _ Hf Hg Hd E1) as (f1 & r1 & v1 & A1). destruct (write_end_inv _ _ _ _ _ _ _ _ Hs Hf Hg Hne ltac:(lia) E2) as (k & f2 & r2 & v & v' & Sh & Hk & Gk & A2 & _).
  rewrite (cut_zeros _ (d - zlen c) Hz (proj1 (Hs _)) ltac:(lia)) in A2.
  assert (k = n) as ->.
  { destruct Hf as (cs & F1 & X1), Hk as (cs' & F2 & X2). eapply shape_det; [exact Hc|exact Sh|apply shape_refl|exact F2|exact F1|eauto|congruence]. }
  exact (append_det _ _ _ _ _ _ _ _ _ _ _ _ _ _ _ _ _ A1 A2).
Qed.

(** ** In the form of the properties, and cases *)

Lemma write_is_grow : forall split wbsize b off n c w, file_content n c -> growable K n -> zlen c < off -> off + zlen b < 9223372036854775808 ->
  outcome (write_back split wbsize b off n w) = outcome (grow_write split wbsize b off n w).
Proof. intros split wbsize b off n c w Hf Hg Hc Ho. f_equal. exact (proj1 (past_end _ _ _ _ _ _ _ Hf Hg Hc Ho)). Qed.
Lemma seek_is_write : forall split wbsize b off n c w, file_content n c -> growable K n -> zlen c < off -> off + zlen b < 9223372036854775808 ->
  outcome (seek_write split wbsize b off n w) = outcome (write_back split wbsize b off n w).
Proof. intros split wbsize b off n c w Hf Hg Hc Ho. exact (proj2 (past_end _ _ _ _ _ _ _ Hf Hg Hc Ho)). Qed.

Definition takes_nothing : world := mkWorld (fun _ => true) [] 0 (fun _ => false) (fun _ => true).
Lemma grew_ex w x : match x : res node * mst with (Ok _, (_, w')) => Nat.ltb (length (w_added w)) (length (w_added w')) | _ => false end = true -> exists n' m' w', x = (Ok n', (m', w')) /\ (length (w_added w) < length (w_added w'))%nat.
Proof. destruct x as [[n'| | |] [m' w']]; try discriminate. intros H. apply Nat.ltb_lt in H. eauto 6. Qed.
Lemma failed_ex (x : res node * mst) : match x with (Err _, _) => true | _ => false end = true -> exists e s', x = (Err e, s').
Proof. destruct x as [[n'| | |] s']; try discriminate. eauto. Qed.
Lemma ok_ex x : is_ok x = true -> exists n' s', x = (Ok n', s').
Proof. intros H. apply is_ok_ex in H as (s' & H). eauto. Qed.

(** All in one piece if it is short. *)
Definition in_one (b : bytes) : list bytes := if zlen b <? 4096 then [b] else bytewise b.
Lemma in_one_ok : chunker_ok in_one.
Proof.
  intros b. unfold in_one. destruct (zlen b <? 4096) eqn:E; [|apply bytewise_ok]. split; [apply app_nil_r|]. constructor; [|constructor]. unfold BlockSizeLimit. lia.
Qed.

Definition a_b : list bytes := [[Byte.x61]; [Byte.x62]].
Lemma differ_ex x y : match fst x, fst y with Ok a, Ok b => negb (node_eqb a b) | _, _ => false end = true -> exists (n1 : node) (s1 : mst) n2 (s2 : mst), x = (Ok n1, s1) /\ y = (Ok n2, s2) /\ n1 <> n2.
Proof.
  destruct x as [[n1| | |] s1], y as [[n2| | |] s2]; try discriminate. cbn [fst]. intros H. exists n1, s1, n2, s2. split; [reflexivity|]. split; [reflexivity|]. intros ->. rewrite (proj2 (node_eqb_eq n2 n2) eq_refl) in H. discriminate.
Qed.
Lemma zeros_differ : exists split wbsize n c d w n1 s1 n2 s2, chunker_ok split /\ file_content n c /\ growable K n /\ canonical_leaves n /\ zlen c < d < 9223372036854775808 /\
  truncate_to split d n w = (Ok n1, s1) /\ write_back split wbsize (repeat Byte.x00 (Z.to_nat (d - zlen c))) (zlen c) n w = (Ok n2, s2) /\ n1 <> n2.
Proof.
  assert (I1 : imported false (two_links false) a_b (bal false a_b)) by (apply bal_imported; [vm_compute; reflexivity|discriminate|reflexivity]).
  destruct (differ_ex (truncate_to bytewise 4 (bal false a_b) full) (write_back bytewise 1 (repeat Byte.x00 (Z.to_nat (4 - zlen (concat a_b)))) (zlen (concat a_b)) (bal false a_b) full) ltac:(vm_compute; reflexivity)) as (n1 & s1 & n2 & s2 & E1 & E2 & D).
  exists bytewise, 1, (bal false a_b), (concat a_b), 4, full, n1, s1, n2, s2. split; [exact bytewise_ok|]. split; [exists a_b; split; [eapply proj1, imported_facts, I1|reflexivity]|]. split; [apply root_growable; vm_compute; reflexivity|]. split; [exact (imported_canonical _ _ _ _ I1)|].
  split; [split; reflexivity|]. auto.
Qed.
