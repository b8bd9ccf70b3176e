(** Writing at the end of an imported file, compared with importing everything. *)
From Verif Require Import Base Pb PbProofs FSNode FSNodeProofs Dag DagProofs Builder Balanced Trickle Importer Reader Modifier
  SpecFile SpecAppend SpecModifier BuilderProofs BalancedProofs ImportProofs AppendProofs AppendRun AppendSame AppendBegun SpecShare ShareProofs ReaderWitness SizesWitness ModifierRun ModifierProofs TruncateProofs ModifierFacts ShortenProofs TraceProofs RewriteProofs DetProofs LeakProofs SpecHole HoleProofs SpecPieces PiecesProofs FlushProofs.

(** What is appended to, and with which settings. *)
Lemma write_appends split wbsize b xs n w n1 s1 : chunker_ok split -> made xs n -> b <> [] -> zlen (concat xs) + zlen b < 9223372036854775808 ->
  write_back split wbsize b (zlen (concat xs)) n w = (Ok n1, s1) -> exists f r u u', trickle_append f r (grow_params n) false (map EvData (split b)) n u = (Ok n1, n1, u').
Proof.
  intros Hs Hm Hb Hl E. pose proof (made_content _ _ Hm) as Hf. pose proof (made_canonical _ _ Hm) as Hc. pose proof (made_growable _ _ Hm) as Hg. destruct Hm as (f & fi & v & v' & Hfl & Him).
  destruct (write_end_inv _ _ _ _ _ _ _ _ Hs Hf Hg Hb Hl E) as (k & f2 & r2 & u & u' & Sh & Hk' & Gk & A & _).
  assert (k = n) as ->.
  { destruct Hf as (cs & F1 & X1), Hk' as (cs' & F2 & X2). eapply shape_det; [exact Hc|exact Sh|apply shape_refl|exact F2|exact F1|eauto|congruence]. }
  eauto.
Qed.

Lemma onward : forall split wbsize c b n w n1 s1 f fi v n2 v', chunker_ok split -> made (split c) n -> b <> [] -> zlen c + zlen b < 9223372036854775808 ->
  zlen (split c) + zlen (split b) <= 2 * K \/ K < zlen (split c) <= 4 * K ->
  write_back split wbsize b (zlen c) n w = (Ok n1, s1) -> (length (split (c ++ b)) < f)%nat -> trickle_import f (grow_params n) fi (map EvData (split (c ++ b))) v = (Ok n2, v') ->
  (n1 = n2 <-> split c ++ split b = split (c ++ b)).
Proof.
  intros split wbsize c b n w n1 s1 f fi v n2 v' Hs Hm Hb Hl Hk E Hf2 E2. pose proof E as E0. rewrite <- (proj1 (Hs c)) in E0 at 1.
  destruct (write_appends _ _ _ _ _ _ _ _ Hs Hm Hb ltac:(rewrite (proj1 (Hs c)); lia) E0) as (g & r & u & u' & A). destruct Hm as (f1 & fi1 & v1 & v1' & Hfl & Him).
  destruct (trickle_succeeds (S (length (split c ++ split b))) (grow_params n) false (split c ++ split b) full K_pos ltac:(lia) ltac:(apply Forall_app; split; apply Hs) (fun _ => eq_refl) ltac:(discriminate)) as (r' & w' & R).
  assert (n1 = r') as ->.
  { destruct Hk as [Hk|Hk]; [eapply (app_same f1 g r _ (grow_params n)); [exact K_pos|exact Hk|exact Him|exact A|exact R]|eapply (app_begun f1 g r _ (grow_params n)); [exact K_pos|exact Hk|exact Him|exact A|exact R]]. }
  split.
  - intros <-. assert (I1 : imports (split c ++ split b) r') by (right; exists (S (length (split c ++ split b))), (grow_params n), false, full, w'; split; [exact K_pos|]; split; [lia|exact R]).
    assert (I2 : imports (split (c ++ b)) r') by (right; exists f, (grow_params n), fi, v, v'; split; [exact K_pos|]; auto).
    destruct (import_injective _ _ _ I1 I2) as [X|(X & _)]; [exact X|]. rewrite concat_app, (proj1 (Hs c)), (proj1 (Hs b)) in X. apply app_eq_nil in X as (_ & X). contradiction.
  - intros X. rewrite X in R. eapply trickle_det; eassumption.
Qed.
Lemma onward_fixed : forall s split wbsize c b n w n1 s1 f fi v n2 v', 0 < s <= BlockSizeLimit -> fixed_size s split -> made (split c) n -> b <> [] -> zlen c + zlen b < 9223372036854775808 ->
  zlen (split c) + zlen (split b) <= 2 * K \/ K < zlen (split c) <= 4 * K ->
  write_back split wbsize b (zlen c) n w = (Ok n1, s1) -> (length (split (c ++ b)) < f)%nat -> trickle_import f (grow_params n) fi (map EvData (split (c ++ b))) v = (Ok n2, v') ->
  (n1 = n2 <-> zlen c mod s = 0).
Proof.
  intros s split wbsize c b n w n1 s1 f fi v n2 v' Hs Hx Hm Hb Hl Hk E Hf2 E2. rewrite <- (fixed_app s split c b ltac:(lia) Hx Hb). exact (onward _ _ _ _ _ _ _ _ _ _ _ _ _ (fixed_chunker _ _ Hs Hx) Hm Hb Hl Hk E Hf2 E2).
Qed.
Lemma onward_long : forall split wbsize c b n w n1 s1 f fi v n2 v', chunker_ok split -> made (split c) n -> b <> [] -> zlen c + zlen b < 9223372036854775808 ->
  zlen (split c) <= K -> 2 * K < zlen (split c) + zlen (split b) -> split c ++ split b = split (c ++ b) ->
  write_back split wbsize b (zlen c) n w = (Ok n1, s1) -> trickle_import f (grow_params n) fi (map EvData (split (c ++ b))) v = (Ok n2, v') -> n1 <> n2.
Proof.
  intros split wbsize c b n w n1 s1 f fi v n2 v' Hs Hm Hb Hl K1 K2 X E E2. rewrite <- (proj1 (Hs c)) in E at 1.
  destruct (write_appends _ _ _ _ _ _ _ _ Hs Hm Hb ltac:(rewrite (proj1 (Hs c)); lia) E) as (g & r & u & u' & A). destruct Hm as (f1 & fi1 & v1 & v1' & Hfl & Him). rewrite <- X in E2.
  eapply (app_differs f1 g r _ (grow_params n)); [exact K_pos|exact K1|exact K2|exact Him|exact A|exact E2].
Qed.

(** ** Cases *)

Definition import_with (p : prefix) (xs : list bytes) : res node * world := trickle_import (S (length xs)) (mkParams K (0 <? p_version p) (Some p) false) false (map EvData xs) full.
Definition import_of (p : prefix) (xs : list bytes) : node := ok_node (fst (import_with p xs)).
Definition prefix_eqb (p q : prefix) : bool := (p_version p =? p_version q) && (p_codec p =? p_codec q) && (p_mhtype p =? p_mhtype q) && (p_mhlen p =? p_mhlen q).
Lemma prefix_eqb_eq p q : prefix_eqb p q = true -> p = q.
Proof. destruct p as [a1 b1 c1 d1], q as [a2 b2 c2 d2]. unfold prefix_eqb. cbn [p_version p_codec p_mhtype p_mhlen]. intros H. f_equal; lia. Qed.
Lemma import_made p xs : p_codec p = DagProtobuf -> match fst (import_with p xs) with Ok n => prefix_eqb (node_prefix n) p | _ => false end = true -> made xs (import_of p xs).
Proof.
  intros Hc H. unfold import_of. destruct (import_with p xs) as [[n| | |] w'] eqn:E; try discriminate. cbn [fst ok_node] in *. apply prefix_eqb_eq in H. exists (S (length xs)), false, full, w'. split; [lia|].
  unfold import_with in E. unfold grow_params, NewDagModifier. cbn [m_raw m_prefix]. rewrite H. rewrite <- Hc. destruct p. exact E.
Qed.
Lemma onward_cases : forall p, In p [mkPrefix 0 112 18 32; mkPrefix 1 112 18 32] ->
  fixed_size 2 (chop 2) /\ fixed_size 1 (chop 1) /\ chunker_ok (chop 2) /\ chunker_ok (chop 1) /\
  (forall s k j, In (s, (k, j)) [(2, (2, 2)); (2, (3, 2)); (1, (200, 2)); (1, (200, 400)); (1, (2, 400))]%nat -> let split := chop (Z.of_nat s) in
     made (split (repeat Byte.x61 k)) (import_of p (split (repeat Byte.x61 k))) /\
     (exists n1 s1, write_back split 2097152 (repeat Byte.x62 j) (Z.of_nat k) (import_of p (split (repeat Byte.x61 k))) full = (Ok n1, s1)) /\
     (exists n2 v', trickle_import 999 (grow_params (import_of p (split (repeat Byte.x61 k)))) false (map EvData (split (repeat Byte.x61 k ++ repeat Byte.x62 j))) full = (Ok n2, v'))) /\
  zlen (chop 2 (repeat Byte.x61 3)) + zlen (chop 2 (repeat Byte.x62 2)) <= 2 * K /\
  K < zlen (chop 1 (repeat Byte.x61 200)) <= 4 * K /\
  zlen (chop 1 (repeat Byte.x61 2)) <= K /\ 2 * K < zlen (chop 1 (repeat Byte.x61 2)) + zlen (chop 1 (repeat Byte.x62 400)) /\
  chop 1 (repeat Byte.x61 2) ++ chop 1 (repeat Byte.x62 400) = chop 1 (repeat Byte.x61 2 ++ repeat Byte.x62 400).
Proof.
  intros p Hp. pose proof (chop_fixed 2 ltac:(lia)) as F2. pose proof (chop_fixed 1 ltac:(lia)) as F1. pose proof (fixed_chunker 2 _ ltac:(unfold BlockSizeLimit; lia) F2) as C2. pose proof (fixed_chunker 1 _ ltac:(unfold BlockSizeLimit; lia) F1) as C1.
  split; [exact F2|]. split; [exact F1|]. split; [exact C2|]. split; [exact C1|]. split.
  - intros s k j H split. assert (Hs : chunker_ok split) by (destruct H as [E|[E|[E|[E|[E|[]]]]]]; injection E as <- _ _; [exact C2|exact C2|exact C1|exact C1|exact C1]).
    assert (Hl : (k <= 200)%nat /\ (j <= 400)%nat) by (destruct H as [E|[E|[E|[E|[E|[]]]]]]; injection E as <- <- <-; lia).
    assert (M : made (split (repeat Byte.x61 k)) (import_of p (split (repeat Byte.x61 k)))).
    { apply import_made; [destruct Hp as [<-|[<-|[]]]; reflexivity|]. subst split. destruct H as [E|[E|[E|[E|[E|[]]]]]]; injection E as <- <- <-; destruct Hp as [<-|[<-|[]]]; vm_compute; reflexivity. }
    split; [exact M|]. pose proof (made_content _ _ M) as Hf. rewrite (proj1 (Hs _)) in Hf. split.
    + destruct (write_back_ok split 2097152 (repeat Byte.x62 j) _ _ full Hs Hf (made_growable _ _ M) (full_good _)) as (n1 & m1 & w1 & E); [rewrite !zlen_repeat; lia|]. rewrite zlen_repeat in E. eauto.
    + apply trickle_succeeds; [exact K_pos| |apply Hs|intros i; reflexivity|discriminate]. subst split. destruct H as [E|[E|[E|[E|[E|[]]]]]]; injection E as <- <- <-; apply Nat.ltb_lt; vm_compute; reflexivity.
  - repeat split; vm_compute; congruence.
Qed.
