(** The chunks of a file after a write that reaches beyond its end. *)
From Verif Require Import Base Pb PbProofs FSNode FSNodeProofs Dag DagProofs Builder Balanced Trickle Importer Reader Modifier
  SpecFile SpecAppend SpecModifier BuilderProofs BalancedProofs ImportProofs AppendProofs AppendRun SpecShare ShareProofs ReaderWitness ModifierRun ModifierProofs TruncateProofs ModifierFacts ShortenProofs TraceProofs RewriteProofs DetProofs LeakProofs SpecHole HoleProofs SpecPieces PiecesProofs FlushProofs OnwardProofs ChunksProofs.

Lemma WriteAt_in split wbsize n c b off w : file_content n c -> 0 <= off <= zlen c -> zlen c < 9223372036854775808 -> off + zlen b < 9223372036854775808 ->
  WriteAt split wbsize b off (NewDagModifier n, w) = (do _ <- (if wbsize <? zlen b then Sync split else ret tt) ;; ret (zlen b)) (written n off b, w).
Proof.
  intros (cs & Hcs & ->) Ho Hc Hl. pose proof (zlen_nonneg b) as Hb. unfold WriteAt. unfold bind at 1, get_mod at 1. cbn [fst NewDagModifier m_buf m_off].
  rewrite (u64_small off) by (unfold two64; lia).
  assert (W : mWrite split wbsize b (m_set_start off (NewDagModifier n), w) = (do _ <- (if wbsize <? zlen b then Sync split else ret tt) ;; ret (zlen b)) (written n off b, w)).
  { unfold mWrite. unfold bind at 1, upd_mod at 1. cbn [fst snd NewDagModifier m_set_start m_set_read m_set_buf m_set_off m_buf m_off m_start m_node m_prefix m_raw app].
    unfold bind at 1, get_mod at 1. cbn [fst m_buf]. rewrite u64_small by (unfold two64; lia). reflexivity. }
  destruct (off =? 0) eqn:E.
  - apply Z.eqb_eq in E. subst off. unfold bind at 1. cbn [ret]. exact W.
  - unfold bind at 1. unfold bind at 1.
    assert (S : mSize (NewDagModifier n, w) = (Ok (zlen (concat cs)), (NewDagModifier n, w))).
    { unfold mSize, bind, cur_node, lift, get_mod. cbn [fst snd NewDagModifier m_node m_buf]. rewrite (fileSize_dag n cs Hcs) by lia. cbn [fst m_buf]. unfold ret.
      now rewrite i64_small by (unfold two63; lia). }
    rewrite S. replace (zlen (concat cs) <? off) with false by lia. unfold bind at 1. cbn [ret]. unfold bind at 1. rewrite Sync_none by reflexivity.
    unfold upd_mod. cbn [fst snd]. exact W.
Qed.

Lemma Sync_over split n c b off w m' w' : chunker_ok split -> file_content n c -> growable K n -> 0 <= off <= zlen c -> zlen c < off + zlen b < 9223372036854775808 -> Sync split (written n off b, w) = (Ok tt, (m', w')) ->
  exists k n1 fuel rf v v', m_node m' = Some n1 /\ m_buf m' = None /\ same_shape n k /\ file_content k (ow c off b) /\ growable K k /\ trickle_append fuel rf (grow_params n) false (map EvData (split (zdrop (zlen c - off) b))) k v = (Ok n1, n1, v').
Proof.
  intros Hs Hf Hg Ho Hl E. pose proof (zlen_nonneg b) as Hb0. unfold Sync in E. unfold bind at 1, get_mod at 1 in E. cbn [fst written m_buf] in E. unfold bind at 1, upd_mod at 1 in E. cbn [fst snd] in E.
  unfold bind at 1, cur_node at 1 in E. cbn [fst snd m_set_read m_node m_start written] in E. unfold bind at 1, lift at 1 in E. destruct Hf as (cs & Hcs & Ec). assert (Hf : file_content n c) by (exists cs; auto).
  rewrite (fileSize_dag n cs Hcs) in E by (rewrite <- Ec; lia). rewrite <- Ec in E. replace (zlen c <? off) with false in E by lia. unfold bind at 1 in E. cbn [ret] in E. unfold bind at 1 in E.
  match type of E with context [modify_cur (?mm, w)] => pose proof (modify_cur_spec mm w n c b eq_refl Hf eq_refl ltac:(cbn; lia) ltac:(cbn; lia)) as E3; destruct (modify_cur (mm, w)) as [[k|e| |] [m3 w3]] end; try discriminate.
  destruct E3 as ((x & ->) & Ck & Sh & _). cbn [m_start m_set_read m_set_node m_set_buf written] in *.
  unfold bind at 1 in E. match type of E with context [get_cur k (?mm, w3)] => pose proof (get_cur_spec mm w3 k) as E4; destruct (get_cur k (mm, w3)) as [[u4|e| |] [m4 w4]] end; try discriminate.
  destruct E4 as [-> ->]. unfold bind at 1, get_mod at 1 in E. cbn [fst m_set_node m_set_buf m_buf] in E.
  assert (Ld : 0 < zlen (zdrop (zlen c - off) b)) by (rewrite zlen_zdrop by lia; lia).
  destruct (zdrop (zlen c - off) b) as [|x0 b'] eqn:Ed; [change (zlen []) with 0 in Ld; lia|].
  unfold bind at 1 in E. unfold bind at 1 in E. unfold append_buf in E. unfold append_cur in E. cbn [fst snd m_node m_set_node m_set_buf] in E. unfold appendData in E.
  assert (Gk : growable K k) by (eapply growable_shape; eassumption). destruct Ck as (cs' & Hcs' & Ec').
  destruct (trickle_append _ _ _ _ _ _ _) as [[r n'] v'] eqn:Ea.
  match type of Ea with trickle_append _ _ ?dbp _ (map EvData ?ch) _ _ = _ => assert (R := append_result (Datatypes.S (length ch)) (weight k) dbp false (map EvData ch) k w3 r n' v' cs' K_pos ltac:(rewrite map_length; apply Nat.lt_succ_diag_r) (height_weight k) Hcs' (growable_appendable K k K_pos Gk) Ea) end.
  destruct r as [root|e| |]; try discriminate. destruct R as [[-> _] _].
  match type of E with context [mod_add ?a (?mm, v')] => pose proof (mod_add_spec mm v' a) as B; destruct (mod_add a (mm, v')) as [[u6|e| |] [m6 w6]] eqn:Em end; try discriminate.
  destruct B as (-> & _). unfold upd_mod in E. cbn [fst snd] in E. injection E as E _. subst m'. exists k, root. do 4 eexists.
  split; [reflexivity|]. split; [reflexivity|]. split; [exact Sh|]. split; [exists cs'; auto|]. split; [exact Gk|]. exact Ea.
Qed.

Lemma over_chunks : forall split wbsize b off n cs w n1 s1, chunker_ok split -> file_dag n cs -> growable K n -> 0 <= off <= zlen (concat cs) -> zlen (concat cs) < off + zlen b < 9223372036854775808 ->
  write_back split wbsize b off n w = (Ok n1, s1) ->
  exists old rcs, file_dag n1 rcs /\ solid rcs = solid old ++ solid (split (zdrop (zlen (concat cs) - off) b)) /\
    map zlen old = map zlen cs /\ concat old = ztake off (concat cs) ++ ztake (zlen (concat cs) - off) b.
Proof.
  intros split wbsize b off n cs w n1 s1 Hs Hcs Hg Ho Hl E. assert (Hf : file_content n (concat cs)) by (exists cs; auto). unfold write_back in E. rewrite (WriteAt_in split wbsize n _ b off w Hf Ho ltac:(unfold bytes in *; lia) ltac:(unfold bytes in *; lia)) in E. unfold bind at 1 in E.
  assert (X : exists m' w', Sync split (written n off b, w) = (Ok tt, (m', w')) /\ (m_buf m' = None -> m_node m' = Some n1)).
  { destruct (wbsize <? zlen b).
    - destruct (Sync split (written n off b, w)) as [[u|e| |] [m' w']]; try discriminate. destruct u. exists m', w'. split; [reflexivity|]. intros Hn. cbn [ret] in E. unfold mGetNode, bind in E. rewrite Sync_none in E by exact Hn. cbn [fst] in E. destruct (m_node m'); [injection E as -> _; reflexivity|discriminate].
    - cbn [ret] in E. unfold mGetNode, bind in E. destruct (Sync split (written n off b, w)) as [[u|e| |] [m' w']]; try discriminate. destruct u. exists m', w'. split; [reflexivity|]. intros _. cbn [fst] in E. destruct (m_node m'); [injection E as -> _; reflexivity|discriminate]. }
  destruct X as (m' & w' & Es & X). destruct (Sync_over _ _ _ _ _ _ _ _ Hs Hf Hg Ho Hl Es) as (k & n1' & fuel & rf & v & v' & N & B & Sh & (ck & Hk & Ek) & Gk & A).
  specialize (X B). rewrite X in N. injection N as <-.
  destruct (append_any _ _ (grow_params n) _ _ _ _ _ _ _ ck K_pos eq_refl (proj2 (Hs _)) Hk (growable_appendable K k K_pos Gk) A) as (rcs & R1 & R2).
  exists ck, rcs. split; [exact R1|]. split; [exact R2|]. split; [symmetry; exact (shape_lens _ _ _ _ Sh Hcs Hk)|]. rewrite <- Ek. unfold ow. rewrite (zdrop_all (off + zlen b)) by (unfold bytes in *; lia). now rewrite app_nil_r.
Qed.

Lemma past_chunks : forall split wbsize b off n cs w n1 s1, chunker_ok split -> file_dag n cs -> growable K n -> zlen (concat cs) < off -> b <> [] -> off + zlen b < 9223372036854775808 ->
  write_back split wbsize b off n w = (Ok n1, s1) ->
  exists rcs zs, file_dag n1 rcs /\ solid rcs = solid cs ++ zs ++ solid (split b) /\ cut_every 4096 zs /\ concat zs = repeat Byte.x00 (Z.to_nat (off - zlen (concat cs))).
Proof.
  intros split wbsize b off n cs w n1 s1 Hs Hcs Hg Ho Hb Hl E. assert (Hf : file_content n (concat cs)) by (exists cs; auto). pose proof (zlen_nonneg b). pose proof (zlen_nonneg (concat cs)).
  pose proof (write_is_grow split wbsize b off n _ w Hf Hg Ho Hl) as X. rewrite E in X. unfold outcome in X. cbn [fst snd] in X. unfold grow_write in X.
  destruct (truncate_to split off n w) as [[n0|e| |] [m0 w0]] eqn:T; try discriminate.
  destruct (write_back split wbsize b off n0 w0) as [r s2] eqn:E2. cbn [fst snd] in X. injection X as X _. subst r.
  destruct (grow_chunks split off n cs w n0 _ Hcs Hg ltac:(unfold bytes in *; lia) T) as (c0 & zs & F0 & S0 & Z1 & Z2).
  pose proof (truncate_to_spec split off n (concat cs) w Hf ltac:(lia) ltac:(unfold bytes in *; lia) ltac:(intros _; exact Hg)) as TS. rewrite T in TS. destruct TS as (_ & _ & _ & _ & _ & G0). specialize (G0 Hg).
  assert (L0 : zlen (concat c0) = off).
  { rewrite <- (solid_concat c0), S0, concat_app, solid_concat, zlen_app, Z2, zlen_repeat. unfold bytes in *; lia. }
  rewrite <- L0 in E2. destruct (write_chunks split wbsize b n0 c0 w0 n1 s2 Hs F0 G0 Hb ltac:(unfold bytes in *; lia) E2) as (rcs & R1 & R2).
  exists rcs, zs. split; [exact R1|]. split; [rewrite R2, S0, app_assoc; reflexivity|]. auto.
Qed.
Lemma inside_chunks : forall split wbsize b off n cs w n1 s1, chunker_ok split -> file_dag n cs -> zlen (concat cs) < 9223372036854775808 -> 0 <= off -> off + zlen b <= zlen (concat cs) ->
  write_back split wbsize b off n w = (Ok n1, s1) -> exists rcs, file_dag n1 rcs /\ map zlen rcs = map zlen cs /\ concat rcs = ztake off (concat cs) ++ b ++ zdrop (off + zlen b) (concat cs).
Proof.
  intros split wbsize b off n cs w n1 s1 Hs Hcs Hl Ho He E. assert (Hf : file_content n (concat cs)) by (exists cs; auto). pose proof (write_back_spec split wbsize b off n _ w Hs Hf Hl Ho He) as S. rewrite E in S. destruct s1 as [m1 w1].
  destruct S as ((rcs & F & Ec) & Sh & _). exists rcs. split; [exact F|]. split; [symmetry; exact (shape_lens _ _ _ _ Sh Hcs F)|]. rewrite <- Ec. pose proof (zlen_nonneg b). unfold put. now rewrite pad_small by (unfold bytes in *; lia).
Qed.

(** ** Cases *)

Lemma three_cases : forall raw t, let n := (if t : bool then tri raw else bal raw) ab_cd in
  chunker_ok (chop 2) /\ file_dag n ab_cd /\ growable K n /\ zlen (concat ab_cd) = 4 /\
  forall off, In off [1; 3; 7] -> exists n1 s1, write_back (chop 2) 1 [Byte.x78; Byte.x79; Byte.x7a] off n full = (Ok n1, s1).
Proof.
  intros raw t n. assert (I1 : imported t (two_links raw) ab_cd n) by (destruct t; subst n; [apply trickle_imports|apply balanced_imports]).
  split; [apply (fixed_chunker 2); [unfold BlockSizeLimit; lia|apply chop_fixed; lia]|]. split; [eapply proj1, imported_facts, I1|]. split; [apply root_growable; destruct t, raw; vm_compute; reflexivity|]. split; [reflexivity|].
  intros off H. apply ok_ex. destruct H as [<-|[<-|[<-|[]]]], t, raw; vm_compute; reflexivity.
Qed.
