(** Programs with several directories: each operation changes what it should and nothing else. *)
From Verif Require Import Base Pb FSNode Dag Builder HashBits Bitfield Hamt DagProofs ReaderProofs2 HeapHamt HeapRep HeapOps HeapGet HeapSwap HeapRun HeapRead HeapWalk HeapNode SpecHeap.

(** ** A walk never runs out of fuel *)
Lemma make_fuel z k v : makeShard z k v <> Fuel.
Proof.
  unfold makeShard, newChilder, NewBitfield, Logtwo. destruct z as [|p|p]; cbn [rbind]; try discriminate. destruct (_ =? _); cbn [rbind]; [|discriminate]. destruct (_ <? _); cbn [rbind]; [discriminate|]. destruct (_ <? _); cbn [rbind]; [discriminate|]. destruct (_ =? _); discriminate.
Qed.
Lemma from_dag_fuel n : NewHamtFromDag n <> Fuel.
Proof.
  destruct n as [p d|p d ls]; [discriminate|]. unfold NewHamtFromDag. destruct (FSNodeFromBytes_cases d) as [[f ->]|[e ->]]; cbn [rbind]; [|discriminate]. destruct (negb _); [discriminate|]. destruct (negb _); [discriminate|].
  match goal with |- context [makeShard ?z ?k ?v] => pose proof (make_fuel z k v); destruct (makeShard z k v) end; cbn [rbind]; try discriminate; [|contradiction]. unfold bf_setbytes. destruct (_ <? _); cbn [rbind]; discriminate.
Qed.
Lemma from_dag_height n c : NewHamtFromDag n = Ok c -> (sheight c <= nheight n)%nat.
Proof.
  destruct n as [p d|p d ls]; [discriminate|]. unfold NewHamtFromDag. destruct (FSNodeFromBytes d) as [f|e| |]; cbn [rbind]; try discriminate. destruct (negb _); [discriminate|]. destruct (negb _); [discriminate|].
  destruct (makeShard _ _ _) as [ds|e| |]; cbn [rbind]; try discriminate. destruct (bf_setbytes _ _) as [bf|e| |]; cbn [rbind]; try discriminate. intros E. injection E as <-. rewrite sheight_unfold. cbn [s_slots nheight].
  apply le_n_S. induction ls as [|l ls IH]; [apply le_n|]. cbn [map fold_right sh_height]. apply Nat.max_le_compat_l, IH.
Qed.
Lemma nheight_pos n : (1 <= nheight n)%nat.
Proof. destruct n; cbn [nheight]; lia. Qed.
Lemma load_cases w s l : match loadChild w s l with Ok c => (sheight c <= nheight (lto l))%nat | Err _ | Panic => True | Fuel => False end.
Proof.
  unfold loadChild, childLinkType. destruct (_ <? _)%nat; cbn [rbind]; [exact I|]. destruct (negb _).
  - unfold makeShardValue. destruct (makeShard (s_size s) [] None) as [v|e| |] eqn:E; cbn [rbind].
    + destruct (_ <? _)%nat; [exact I|]. rewrite sheight_unfold. cbn [s_slots]. apply make_shape in E. rewrite E. cbn [s_slots fold_right]. apply nheight_pos.
    + exact I.
    + exact I.
    + now apply make_fuel in E.
  - unfold dserv_get. destruct (_ && _); cbn [rbind]; [|exact I]. pose proof (from_dag_fuel (lto l)). destruct (NewHamtFromDag (lto l)) as [c|e| |] eqn:E; auto. now apply from_dag_height.
Qed.
Lemma each_fuel f w cb : (forall s acc, (sheight s <= f)%nat -> fst (walkTrie f w cb (s, acc)) <> Fuel) ->
  forall n i s acc, 0 <= i -> (forall j y, (Z.to_nat i <= j)%nat -> nth_error (s_slots s) j = Some y -> (sh_height y <= f)%nat) -> fst (weach f w cb n i (s, acc)) <> Fuel.
Proof.
  intros IH. induction n as [|n IHn]; intros i s acc Hi Hs; [discriminate|]. cbn [weach]. unfold get_child. destruct (check s i) as [[]|e| |] eqn:Ec; try discriminate.
  2:{ unfold check in Ec. destruct (_ || _); discriminate. }
  destruct (nth_error (s_slots s) (Z.to_nat i)) as [[l|c]|] eqn:En; [| |discriminate].
  - pose proof (load_cases w s l) as L. destruct (loadChild w s l) as [c|e| |]; try discriminate; [|contradiction].
    assert (Hc : (sheight c <= f)%nat) by (pose proof (Hs _ _ (le_n _) En); cbn [sh_height] in *; lia).
    assert (Next_ : forall x y, forall j z, (Z.to_nat (i + 1) <= j)%nat -> nth_error (s_slots (set_child x i (set_child y i s))) j = Some z -> (sh_height z <= f)%nat).
    { intros x y j z Hj. unfold set_child. cbn [set_slots s_slots]. rewrite !set_nth_other by lia. apply Hs. lia. }
    destruct (if isValueNode c then s_val c else None) as [v|].
    + destruct (cb acc _); [discriminate|]. apply IHn; [lia|]. apply Next_.
    + pose proof (IH c acc Hc) as W. destruct (walkTrie f w cb (c, acc)) as [[u|e| |] [c' acc']]; try discriminate; [|now contradiction W]. apply IHn; [lia|]. apply Next_.
  - assert (Hc : (sheight c <= f)%nat) by exact (Hs _ _ (le_n _) En).
    assert (Next_ : forall x, forall j z, (Z.to_nat (i + 1) <= j)%nat -> nth_error (s_slots (set_child x i s)) j = Some z -> (sh_height z <= f)%nat).
    { intros x j z Hj. unfold set_child. cbn [set_slots s_slots]. rewrite !set_nth_other by lia. apply Hs. lia. }
    destruct (if isValueNode c then s_val c else None) as [v|].
    + destruct (cb acc _); [discriminate|]. apply IHn; [lia|]. apply Next_.
    + pose proof (IH c acc Hc) as W. destruct (walkTrie f w cb (c, acc)) as [[u|e| |] [c' acc']]; try discriminate; [|now contradiction W]. apply IHn; [lia|]. apply Next_.
Qed.
Lemma max_at (ss : list (slot shard)) : forall j y, nth_error ss j = Some y -> (sh_height y <= fold_right (fun x m => Nat.max (sh_height x) m) O ss)%nat.
Proof. induction ss as [|x ss IH]; intros [|j] y H; try discriminate; cbn [fold_right nth_error] in *; [injection H as ->; lia|]. pose proof (IH _ _ H). lia. Qed.
Lemma walk_fuel f w cb : forall s acc, (sheight s <= f)%nat -> fst (walkTrie f w cb (s, acc)) <> Fuel.
Proof.
  induction f as [|f IH]; intros s acc H; [rewrite sheight_unfold in H; lia|]. rewrite walk_eq. cbn [fst]. apply each_fuel; [exact IH|lia|]. intros j y _ Hy. apply max_at in Hy. rewrite sheight_unfold in H. lia.
Qed.
Lemma foreach_fuel w cb s : fst (ForEachLink w cb (s, [])) <> Fuel.
Proof. unfold ForEachLink. apply walk_fuel. reflexivity. Qed.

(** ** Watching another link *)
Definition watch (la : laddr) (key : bytes) : Tag := {| t_la := Some la; t_key := key |}.
Definition nowatch : Tag := {| t_la := None; t_key := [] |}.
Lemma hrep_keys (T : Tag) h :
  (forall a s F G K, hrep h a s F G K -> exists L, map fst L = G /\ forall T' : Tag, (forall la key, In (la, key) L -> @t_la T' = Some la -> key = @t_key T') -> @hrep T' h a s F G K) /\
  (forall xs ss F G K, hreps h xs ss F G K -> exists L, map fst L = G /\ forall T' : Tag, (forall la key, In (la, key) L -> @t_la T' = Some la -> key = @t_key T') -> @hreps T' h xs ss F G K).
Proof.
  apply hrep_both.
  - intros a c s F G0 G K Hc Hh Hv _ (L & EL & IH).
    assert (exists L0, map fst L0 = G0 /\ forall T' : Tag, (forall la key, In (la, key) L0 -> @t_la T' = Some la -> key = @t_key T') -> @hval T' h (s_key s) (c_val c) (s_val s) G0) as (L0 & E0 & H0).
    { unfold hval in *. destruct (c_val c) as [la|], (s_val s); try contradiction; [|exists []; split; [now subst|auto]]. destruct Hv as (-> & l' & A1 & A2 & A3 & A4 & _). exists [(la, s_key s)]. split; [reflexivity|]. intros T' HT. split; [reflexivity|]. exists l'. repeat (split; [assumption|]). apply HT. now left. }
    exists (L0 ++ L). split; [rewrite map_app; congruence|]. intros T' HT. eapply (@hrep_intro T'); [exact Hc|exact Hh|apply H0|apply IH]; intros la key Hi; apply HT, in_or_app; auto.
  - exists []. split; [reflexivity|]. intros. constructor.
  - intros la l xs ss F G K Hl _ (L & EL & IH). exists L. split; [exact EL|]. intros T' HT. constructor; auto.
  - intros a s xs ss F1 G1 K1 F2 G2 K2 _ (L1 & E1 & I1) _ (L2 & E2 & I2). exists (L1 ++ L2). split; [rewrite map_app; congruence|]. intros T' HT. constructor; [apply I1|apply I2]; intros la key Hi; apply HT, in_or_app; auto.
Qed.
Lemma owns_watch (T : Tag) h a s F G K la : owns h a s F G K -> In la G -> exists key, @owns (watch la key) h a s F G K.
Proof.
  intros O Hi. destruct (owns_bounds _ _ _ _ _ _ O) as (_ & BG & _). destruct O as [Rp NF NG NK _]. destruct (proj1 (hrep_keys T h) _ _ _ _ _ Rp) as (L & EL & HL). rewrite <- EL in Hi. apply in_map_iff in Hi as ((la' & key) & <- & Hin). cbn [fst] in *. exists key.
  constructor; auto.
  - apply HL. cbn. intros lb key' Hin' E. injection E as <-. rewrite <- EL in NG. clear - NG Hin Hin'. induction L as [|[x k] L IH]; [destruct Hin|]. inversion NG as [|? ? N1 N2]; subst. destruct Hin as [Hin|Hin], Hin' as [Hin'|Hin'].
    + congruence.
    + injection Hin as -> ->. exfalso. apply N1. cbn [fst]. apply (in_map fst) in Hin'. exact Hin'.
    + injection Hin' as -> ->. exfalso. apply N1. cbn [fst]. apply (in_map fst) in Hin. exact Hin.
    + auto.
  - cbn. intros x E. injection E as <-. apply BG. rewrite <- EL. apply (in_map fst) in Hin. exact Hin.
Qed.
Lemma owns_away (T : Tag) h a s F G K la key : owns h a s F G K -> ~ In la G -> (la < length (h_links h))%nat -> @owns (watch la key) h a s F G K.
Proof.
  intros [Rp NF NG NK _] Hn Hb. constructor; auto; [|cbn; intros x E; injection E as <-; exact Hb].
  destruct (proj1 (hrep_keys T h) _ _ _ _ _ Rp) as (L & EL & HL). apply HL. cbn. intros lb key' Hin E. injection E as <-. exfalso. apply Hn. rewrite <- EL. apply (in_map fst) in Hin. exact Hin.
Qed.

(** ** Several directories *)
Record own := mkOwn { p_a : saddr; p_s : shard; p_F : list saddr; p_G : list laddr; p_K : list laddr }.
(** Each directory has its own objects; the links in [R] belong to none and do not change. *)
Record linv {T : Tag} (h : heap) (L : list own) (R : list laddr) : Prop := {
  li_own : forall i o, nth_error L i = Some o -> owns h (p_a o) (p_s o) (p_F o) (p_G o) (p_K o);
  li_F : forall i j o o', i <> j -> nth_error L i = Some o -> nth_error L j = Some o' -> forall z, In z (p_F o) -> ~ In z (p_F o');
  li_G : forall i j o o', i <> j -> nth_error L i = Some o -> nth_error L j = Some o' -> forall z, In z (p_G o) -> ~ In z (p_G o');
  li_K : forall i j o o', nth_error L i = Some o -> nth_error L j = Some o' -> forall z, In z (p_G o) -> ~ In z (p_K o');
  li_R : forall i o, nth_error L i = Some o -> forall z, In z (p_G o) -> ~ In z R;
  li_B : forall z, In z R -> (z < length (h_links h))%nat;
  li_t : forall la, t_la = Some la -> (la < length (h_links h))%nat }.

Lemma set_nth_cases {A} i j (x y : A) l : nth_error (set_nth i x l) j = Some y -> (i = j /\ x = y) \/ (i <> j /\ nth_error l j = Some y).
Proof.
  intros H. destruct (Nat.eq_dec i j) as [->|N]; [left; split; [reflexivity|]|right; split; [exact N|]; now rewrite set_nth_other in H by exact N].
  revert j H. induction l as [|z l IH]; intros [|j] H; cbn in *; try discriminate; [congruence|eauto].
Qed.
Section Inv.
Context {TG : Tag}.
Lemma linv_bounds h L R i o : linv h L R -> nth_error L i = Some o -> (forall x, In x (p_F o) -> (x < length (h_shards h))%nat) /\ (forall x, In x (p_G o) -> (x < length (h_links h))%nat) /\ (forall x, In x (p_K o) -> (x < length (h_links h))%nat).
Proof. intros I H. eapply owns_bounds, (li_own _ _ _ I _ _ H). Qed.
(** Links in [V] belong to no directory. *)
Definition unowned (L : list own) (V : list laddr) : Prop := forall i o, nth_error L i = Some o -> forall z, In z V -> ~ In z (p_G o) /\ ~ In z (p_K o).
Lemma linv_update h h' L R i o s' F' G' K' V X : linv h L R -> nth_error L i = Some o -> owns h' (p_a o) s' F' G' K' -> sub (length (h_shards h)) F' (p_F o) -> sub (length (h_links h)) G' (V ++ p_G o) -> sub (length (h_links h)) K' (p_K o) ->
  kept h h' (p_F o) (V ++ p_G o) -> unowned L V -> (forall z, In z V -> ~ In z R) -> sub (length (h_links h)) X (p_G o) -> (forall z, In z X -> ~ In z G') -> (forall z, In z X -> (z < length (h_links h'))%nat) ->
  linv h' (set_nth i (mkOwn (p_a o) s' F' G' K') L) (X ++ R).
Proof.
  intros I Hi O SF SG SK Hk HV HVR SX HX BX. pose proof (kp_n _ _ _ _ Hk) as Bn. pose proof (kp_m _ _ _ _ Hk) as Bm. destruct (linv_bounds _ _ _ _ _ I Hi) as (B1 & B2 & B3).
  constructor.
  - intros j o' Hj. apply set_nth_cases in Hj as [[<- <-]|[N Hj]]; [exact O|]. eapply owns_frame; [exact (li_own _ _ _ I _ _ Hj)|exact Hk| | |].
    + intros z Hz Hz'. exact (li_F _ _ _ I _ _ _ _ N Hi Hj z Hz' Hz).
    + intros z Hz Hz'. apply in_app_iff in Hz' as [Hz'|Hz']; [exact (proj1 (HV _ _ Hj z Hz') Hz)|exact (li_G _ _ _ I _ _ _ _ N Hi Hj z Hz' Hz)].
    + intros z Hz Hz'. apply in_app_iff in Hz' as [Hz'|Hz']; [exact (proj2 (HV _ _ Hj z Hz') Hz)|exact (li_K _ _ _ I _ _ _ _ Hi Hj z Hz' Hz)].
  - assert (Q : forall j o', i <> j -> nth_error L j = Some o' -> forall z, In z F' -> In z (p_F o') -> False).
    { intros j o' N Hj z Hz Hz'. destruct (SF z Hz) as [Hf|Hf]; [exact (li_F _ _ _ I _ _ _ _ N Hi Hj z Hf Hz')|]. apply (linv_bounds _ _ _ _ _ I Hj) in Hz'. lia. }
    intros j k oj ok N Hj Hk' z Hz Hz'. apply set_nth_cases in Hj as [[<- <-]|[Nj Hj]]; apply set_nth_cases in Hk' as [[<- <-]|[Nk Hk']].
    + now apply N.
    + exact (Q _ _ Nk Hk' z Hz Hz').
    + exact (Q _ _ Nj Hj z Hz' Hz).
    + exact (li_F _ _ _ I _ _ _ _ N Hj Hk' z Hz Hz').
  - assert (Q : forall j o', i <> j -> nth_error L j = Some o' -> forall z, In z G' -> In z (p_G o') -> False).
    { intros j o' N Hj z Hz Hz'. destruct (SG z Hz) as [Hf|Hf]; [apply in_app_iff in Hf as [Hf|Hf]; [exact (proj1 (HV _ _ Hj z Hf) Hz')|exact (li_G _ _ _ I _ _ _ _ N Hi Hj z Hf Hz')]|]. apply (linv_bounds _ _ _ _ _ I Hj) in Hz'. lia. }
    intros j k oj ok N Hj Hk' z Hz Hz'. apply set_nth_cases in Hj as [[<- <-]|[Nj Hj]]; apply set_nth_cases in Hk' as [[<- <-]|[Nk Hk']].
    + now apply N.
    + exact (Q _ _ Nk Hk' z Hz Hz').
    + exact (Q _ _ Nj Hj z Hz' Hz).
    + exact (li_G _ _ _ I _ _ _ _ N Hj Hk' z Hz Hz').
  - intros j k oj ok Hj Hk' z Hz Hz'. apply set_nth_cases in Hj as [[<- <-]|[Nj Hj]]; apply set_nth_cases in Hk' as [[<- <-]|[Nk Hk']]; cbn [p_G p_K] in *.
    + exact (ow_K _ _ _ _ _ _ O z Hz Hz').
    + destruct (SG z Hz) as [Hf|Hf]; [apply in_app_iff in Hf as [Hf|Hf]; [exact (proj2 (HV _ _ Hk' z Hf) Hz')|exact (li_K _ _ _ I _ _ _ _ Hi Hk' z Hf Hz')]|]. apply (linv_bounds _ _ _ _ _ I Hk') in Hz'. lia.
    + destruct (SK z Hz') as [Hf|Hf]; [exact (li_K _ _ _ I _ _ _ _ Hj Hi z Hz Hf)|]. apply (linv_bounds _ _ _ _ _ I Hj) in Hz. lia.
    + exact (li_K _ _ _ I _ _ _ _ Hj Hk' z Hz Hz').
  - intros j o' Hj z Hz Hz'. apply in_app_iff in Hz'. apply set_nth_cases in Hj as [[<- <-]|[N Hj]]; cbn [p_G] in *.
    + destruct Hz' as [Hz'|Hz']; [exact (HX z Hz' Hz)|]. destruct (SG z Hz) as [Hf|Hf]; [apply in_app_iff in Hf as [Hf|Hf]; [exact (HVR z Hf Hz')|exact (li_R _ _ _ I _ _ Hi z Hf Hz')]|]. apply (li_B _ _ _ I) in Hz'. lia.
    + destruct Hz' as [Hz'|Hz']; [|exact (li_R _ _ _ I _ _ Hj z Hz Hz')]. destruct (SX z Hz') as [Hf|Hf]; [exact (li_G _ _ _ I _ _ _ _ N Hi Hj z Hf Hz)|]. apply (linv_bounds _ _ _ _ _ I Hj) in Hz. lia.
  - intros z Hz. apply in_app_iff in Hz as [Hz|Hz]; [exact (BX z Hz)|]. apply (li_B _ _ _ I) in Hz. lia.
  - intros la Hla. apply (li_t _ _ _ I) in Hla. lia.
Qed.
Lemma linv_keep h h' L R R' : linv h L R -> kept h h' [] [] -> (forall z, In z R' -> In z R \/ (length (h_links h) <= z < length (h_links h'))%nat) -> linv h' L R'.
Proof.
  intros I Hk HR. pose proof (kp_m _ _ _ _ Hk) as Bm. constructor.
  - intros i o Hi. eapply owns_frame; [exact (li_own _ _ _ I _ _ Hi)|exact Hk| | |]; intros z _ [].
  - exact (li_F _ _ _ I).
  - exact (li_G _ _ _ I).
  - exact (li_K _ _ _ I).
  - intros i o Hi z Hz Hz'. destruct (HR z Hz') as [Hr|Hr]; [exact (li_R _ _ _ I _ _ Hi z Hz Hr)|]. apply (linv_bounds _ _ _ _ _ I Hi) in Hz. lia.
  - intros z Hz. destruct (HR z Hz) as [Hr|Hr]; [apply (li_B _ _ _ I) in Hr|]; lia.
  - intros la Hla. apply (li_t _ _ _ I) in Hla. lia.
Qed.
Lemma snoc_cases {A} (l : list A) x i y : nth_error (l ++ [x]) i = Some y -> (nth_error l i = Some y /\ (i < length l)%nat) \/ (i = length l /\ x = y).
Proof.
  intros H. destruct (Nat.lt_ge_cases i (length l)) as [C|C]; [rewrite nth_error_app1 in H by exact C; auto|]. rewrite nth_error_app2 in H by exact C. destruct (i - length l)%nat as [|n] eqn:E; cbn in H; [|destruct n; discriminate]. injection H as ->. right. split; [lia|reflexivity].
Qed.
Lemma linv_add h h' L R a s F K : linv h L R -> kept h h' [] [] -> owns h' a s F [] K -> (forall z, In z F -> (length (h_shards h) <= z)%nat) -> (forall z, In z K -> In z R \/ (length (h_links h) <= z)%nat) -> linv h' (L ++ [mkOwn a s F [] K]) R.
Proof.
  intros I Hk O HF HK. pose proof (linv_keep h h' L R R I Hk (fun z Hz => or_introl Hz)) as I'. constructor.
  - intros i o Hi. apply snoc_cases in Hi as [[Hi _]|[-> <-]]; [exact (li_own _ _ _ I' _ _ Hi)|exact O].
  - intros i j oi oj N Hi Hj z Hz Hz'. apply snoc_cases in Hi as [[Hi Li]|[-> <-]]; apply snoc_cases in Hj as [[Hj Lj]|[-> <-]]; cbn [p_F] in *; [exact (li_F _ _ _ I' _ _ _ _ N Hi Hj z Hz Hz')| | |now apply N].
    + apply (linv_bounds _ _ _ _ _ I Hi) in Hz. apply HF in Hz'. lia.
    + apply (linv_bounds _ _ _ _ _ I Hj) in Hz'. apply HF in Hz. lia.
  - intros i j oi oj N Hi Hj z Hz Hz'. apply snoc_cases in Hi as [[Hi Li]|[-> <-]]; apply snoc_cases in Hj as [[Hj Lj]|[-> <-]]; cbn [p_G] in *; [exact (li_G _ _ _ I' _ _ _ _ N Hi Hj z Hz Hz')|destruct Hz'|destruct Hz|destruct Hz].
  - intros i j oi oj Hi Hj z Hz Hz'. apply snoc_cases in Hi as [[Hi Li]|[-> <-]]; apply snoc_cases in Hj as [[Hj Lj]|[-> <-]]; cbn [p_G p_K] in *; [exact (li_K _ _ _ I' _ _ _ _ Hi Hj z Hz Hz')| |destruct Hz|destruct Hz].
    destruct (HK z Hz') as [Hr|Hr]; [exact (li_R _ _ _ I _ _ Hi z Hz Hr)|]. apply (linv_bounds _ _ _ _ _ I Hi) in Hz. lia.
  - intros i o Hi z Hz Hz'. apply snoc_cases in Hi as [[Hi Li]|[-> <-]]; [exact (li_R _ _ _ I' _ _ Hi z Hz Hz')|destruct Hz].
  - exact (li_B _ _ _ I').
  - exact (li_t _ _ _ I').
Qed.
End Inv.
Lemma linv_watch (T : Tag) h L R i o la : linv h L R -> nth_error L i = Some o -> In la (p_G o) -> exists key, @linv (watch la key) h L R /\ @owns (watch la key) h (p_a o) (p_s o) (p_F o) (p_G o) (p_K o).
Proof.
  intros I Hi Hla. destruct (owns_watch T _ _ _ _ _ _ la (li_own _ _ _ I _ _ Hi) Hla) as (key & O). exists key. split; [|exact O]. destruct I as [A1 A2 A3 A4 A5 A6 A7]. constructor; auto.
  - intros j o' Hj. destruct (Nat.eq_dec i j) as [<-|N]; [rewrite Hi in Hj; injection Hj as <-; exact O|]. eapply (owns_away T); [exact (A1 _ _ Hj)|exact (A3 _ _ _ _ N Hi Hj la Hla)|]. destruct (owns_bounds _ _ _ _ _ _ (A1 _ _ Hi)) as (_ & B & _). exact (B la Hla).
  - exact (ow_t _ _ _ _ _ _ O).
Qed.
