(** Data written in several calls is the same as written in one, as long as it fits into the buffer. *)
From Verif Require Import Base Pb PbProofs FSNode FSNodeProofs Dag DagProofs Builder Balanced Trickle Importer Reader Modifier
  SpecFile SpecAppend SpecModifier BuilderProofs BalancedProofs ImportProofs AppendProofs AppendRun SpecShare ShareProofs ReaderWitness ModifierRun ModifierProofs TruncateProofs ModifierFacts ShortenProofs TraceProofs RewriteProofs LeakProofs SpecHole HoleProofs KindProofs SpecPieces.

Definition buffered (m : modifier) (b : bytes) : modifier :=
  m_set_off (u64 (m_off m + zlen b)) (m_set_buf (Some (match m_buf m with Some x => x | None => [] end ++ b)) (m_set_read None m)).
Lemma mWrite_fits split wbsize m w b : waiting m + zlen b <= wbsize -> mWrite split wbsize b (m, w) = (Ok (zlen b), (buffered m b, w)).
Proof.
  intros H. unfold mWrite. unfold bind at 1, upd_mod at 1. cbn [fst snd]. fold (buffered m b). unfold bind at 1, get_mod at 1. cbn [fst]. change (m_buf (buffered m b)) with (Some (match m_buf m with Some x => x | None => [] end ++ b)). cbv iota beta.
  assert (L : zlen (match m_buf m with Some x => x | None => [] end ++ b) <= wbsize) by (rewrite zlen_app; unfold waiting in H; destruct (m_buf m); [exact H|change (zlen []) with 0; lia]).
  replace (wbsize <? _) with false by lia. reflexivity.
Qed.
Lemma buffered_twice m a b : buffered (buffered m a) b = buffered m (a ++ b).
Proof.
  unfold buffered, m_set_off, m_set_buf, m_set_read. cbn [m_off m_buf m_node m_start m_prefix m_raw m_read]. rewrite <- app_assoc, zlen_app.
  replace (u64 (u64 (m_off m + zlen a) + zlen b)) with (u64 (m_off m + (zlen a + zlen b))); [reflexivity|]. unfold u64. rewrite Zplus_mod_idemp_l. f_equal. lia.
Qed.
Lemma waiting_buffered m a : waiting (buffered m a) = waiting m + zlen a.
Proof. unfold waiting. change (m_buf (buffered m a)) with (Some (match m_buf m with Some x => x | None => [] end ++ a)). cbv iota beta. rewrite zlen_app. now destruct (m_buf m). Qed.

Lemma pieces : forall split wbsize ps m w, ps <> [] -> waiting m + zlen (concat ps) <= wbsize ->
  fst (writes split wbsize ps (m, w)) = Ok tt /\ snd (writes split wbsize ps (m, w)) = snd (mWrite split wbsize (concat ps) (m, w)).
Proof.
  intros split wbsize ps m w H0 H. rewrite mWrite_fits by exact H. cbn [snd]. destruct ps as [|p ps]; [contradiction|]. clear H0. revert p m H. induction ps as [|q ps IH]; intros p m H.
  - cbn [concat] in *. rewrite app_nil_r in *. cbn [writes]. unfold bind. rewrite mWrite_fits by exact H. split; reflexivity.
  - change (concat (p :: q :: ps)) with (p ++ concat (q :: ps)) in *. rewrite zlen_app in H. pose proof (zlen_nonneg (concat (q :: ps))). rewrite <- buffered_twice.
    change (writes split wbsize (p :: q :: ps)) with (do _ <- mWrite split wbsize p ;; writes split wbsize (q :: ps)). unfold bind. rewrite mWrite_fits by lia. apply IH. rewrite waiting_buffered. lia.
Qed.

(** So every call afterwards has the same answer. *)
Lemma pieces_root : forall split wbsize ps1 ps2 n w, ps1 <> [] -> ps2 <> [] -> concat ps1 = concat ps2 -> zlen (concat ps1) <= wbsize ->
  (do _ <- writes split wbsize ps1 ;; mGetNode split) (NewDagModifier n, w) = (do _ <- writes split wbsize ps2 ;; mGetNode split) (NewDagModifier n, w).
Proof.
  intros split wbsize ps1 ps2 n w H1 H2 E H. destruct (pieces split wbsize ps1 (NewDagModifier n) w H1 H) as (A1 & B1). rewrite E in H, B1. destruct (pieces split wbsize ps2 (NewDagModifier n) w H2 H) as (A2 & B2).
  unfold bind. destruct (writes split wbsize ps1 (NewDagModifier n, w)) as [r1 s1], (writes split wbsize ps2 (NewDagModifier n, w)) as [r2 s2]. cbn [fst snd] in *. subst. reflexivity.
Qed.

(** ** Cases *)

Definition nothing : node := ok_node EmptyFileNode.
Definition abc_d : list bytes := [[Byte.x61; Byte.x62; Byte.x63]; [Byte.x64]].
Lemma nothing_file : file_content nothing [] /\ growable K nothing.
Proof.
  destruct empty_file as (n & E & F & _). unfold nothing. split; [rewrite E; exists [[]]; split; [exact F|reflexivity]|]. apply root_growable. vm_compute. reflexivity.
Qed.
