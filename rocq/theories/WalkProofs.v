(** The parallel enumeration: what every run delivers, that it does not get stuck and
    that it ends. *)
From Coq Require Import Sorting.Permutation.
From Verif Require Import Base Pb FSNode Dag DagProofs Builder HashBits Bitfield Hamt SpecHamt HamtExec Walk HamtRep.

(** ** Contents of a shard, loaded or not *)

Definition npad (n : node) : nat := match NewHamtFromDag n with Ok s => maxpadlen s | _ => O end.
Definition centry (l : link) : dentry := (lsize l, lto l).
Definition pentry (k : bytes) (l : link) : bytes * dentry := (k, centry l).
Fixpoint nentries (n : node) : list (bytes * dentry) :=
  match n with
  | NRaw _ _ => []
  | NProto p d ls =>
      flat_map (fun l => if (length (lname l) =? npad n)%nat then nentries (lto l) else [pentry (skipn (npad n) (lname l)) l]) ls
  end.
Fixpoint nsubs (n : node) : list node :=
  match n with
  | NRaw _ _ => []
  | NProto p d ls => flat_map (fun l => if (length (lname l) =? npad n)%nat then lto l :: nsubs (lto l) else []) ls
  end.
Definition lentries (pad : nat) (l : link) : list (bytes * dentry) :=
  if (length (lname l) =? pad)%nat then nentries (lto l) else [pentry (skipn pad (lname l)) l].
Definition lsubs (pad : nat) (l : link) : list node :=
  if (length (lname l) =? pad)%nat then lto l :: nsubs (lto l) else [].
Fixpoint sentries (s : shard) : list (bytes * dentry) :=
  match s with
  | mkShard _ _ _ _ _ slots =>
      flat_map (fun x => match x with
                         | SLink l => lentries (maxpadlen s) l
                         | SShard c => match s_val c with Some v => [pentry (s_key c) v] | None => sentries c end
                         end) slots
  end.
Fixpoint ssubs (s : shard) : list node :=
  match s with
  | mkShard _ _ _ _ _ slots =>
      flat_map (fun x => match x with
                         | SLink l => lsubs (maxpadlen s) l
                         | SShard c => match s_val c with Some v => [] | None => ssubs c end
                         end) slots
  end.
(** Work left for a shard. *)
Fixpoint nweight (n : node) : nat :=
  match n with
  | NRaw _ _ => 20
  | NProto p d ls => 20 + list_sum (map (fun l => 5 + nweight (lto l)) ls)
  end%nat.
Fixpoint sweight (s : shard) : nat :=
  match s with
  | mkShard _ _ _ _ _ slots =>
      20 + list_sum (map (fun x => match x with SLink l => 5 + nweight (lto l) | SShard c => 5 + sweight c end) slots)
  end%nat.
(** Everything below can be loaded and is in the DAG service. *)
Definition lgood (w : world) (good : node -> Prop) (pad : nat) (l : link) : Prop :=
  (pad <= length (lname l))%nat /\ (length (lname l) = pad -> stored w (lto l) = true /\ good (lto l)).
Fixpoint ngood (w : world) (n : node) : Prop :=
  match n with
  | NRaw _ _ => False
  | NProto p d ls =>
      (exists s, NewHamtFromDag n = Ok s) /\
      fold_right (fun l Q => ((npad n <= length (lname l))%nat /\ (length (lname l) = npad n -> stored w (lto l) = true /\ ngood w (lto l))) /\ Q) True ls
  end.
Fixpoint sgood (w : world) (s : shard) : Prop :=
  match s with
  | mkShard _ _ _ _ _ slots =>
      (exists v, makeShard (s_size s) [] None = Ok v) /\
      fold_right (fun x Q => match x with
                             | SLink l => lgood w (ngood w) (maxpadlen s) l
                             | SShard c => match s_val c with Some v => True | None => sgood w c end
                             end /\ Q) True slots
  end.

Definition slot_entries (pad : nat) (x : slot shard) : list (bytes * dentry) :=
  match x with
  | SLink l => lentries pad l
  | SShard c => match s_val c with Some v => [pentry (s_key c) v] | None => sentries c end
  end.
Definition slot_subs (pad : nat) (x : slot shard) : list node :=
  match x with
  | SLink l => lsubs pad l
  | SShard c => match s_val c with Some v => [] | None => ssubs c end
  end.
Definition slot_good (w : world) (pad : nat) (x : slot shard) : Prop :=
  match x with
  | SLink l => lgood w (ngood w) pad l
  | SShard c => match s_val c with Some v => True | None => sgood w c end
  end.
Definition slot_weight (x : slot shard) : nat := match x with SLink l => 5 + nweight (lto l) | SShard c => 5 + sweight c end%nat.
Lemma fold_all {A} (Q : A -> Prop) l : fold_right (fun x R => Q x /\ R) True l <-> Forall Q l.
Proof. induction l as [|x l IH]; cbn; [split; auto|]. rewrite IH, Forall_cons_iff. tauto. Qed.
Lemma sentries_eq s : sentries s = flat_map (slot_entries (maxpadlen s)) (s_slots s).
Proof. destruct s. reflexivity. Qed.
Lemma ssubs_eq s : ssubs s = flat_map (slot_subs (maxpadlen s)) (s_slots s).
Proof. destruct s. reflexivity. Qed.
Lemma sweight_eq s : sweight s = (20 + list_sum (map slot_weight (s_slots s)))%nat.
Proof. destruct s. reflexivity. Qed.
Lemma sgood_eq w s : sgood w s <-> (exists v, makeShard (s_size s) [] None = Ok v) /\ Forall (slot_good w (maxpadlen s)) (s_slots s).
Proof. destruct s as [z b f k v sl]. cbn [sgood]. rewrite <- fold_all. tauto. Qed.

(** A loaded shard has the contents of its node. *)
Lemma load_slots n s : NewHamtFromDag n = Ok s -> exists p d ls, n = NProto p d ls /\ s_slots s = map SLink ls /\ npad n = maxpadlen s /\ exists v, makeShard (s_size s) [] None = Ok v.
Proof.
  intros H. assert (Hp : npad n = maxpadlen s) by (unfold npad; now rewrite H). destruct n as [p d|p d ls]; [discriminate|]. exists p, d, ls. split; [reflexivity|].
  cbn in H. destruct (FSNodeFromBytes d) as [fsn| | |]; try discriminate. cbn in H. destruct (negb _); [discriminate|]. destruct (negb _); [discriminate|].
  destruct (makeShard (i64 (getFanout fsn)) [] None) as [ds| | |] eqn:E; try discriminate. cbn in H. destruct (bf_setbytes _ _) as [bf| | |]; try discriminate. cbn in H. injection H as <-. cbn [s_slots s_size].
  split; [reflexivity|]. split; [exact Hp|]. exists ds. destruct ds as [z b f k v sl]. cbn. unfold makeShard in *. destruct (Logtwo (i64 (getFanout fsn))) eqn:E2; try discriminate. cbn in E. destruct (newChilder _) eqn:E3; try discriminate.
  cbn in E. injection E as <- <- <- <- <- <-. rewrite E2. cbn. now rewrite E3.
Qed.
Lemma flat_map_map {A B C} (f : A -> B) (g : B -> list C) l : flat_map g (map f l) = flat_map (fun x => g (f x)) l.
Proof. induction l; cbn; congruence. Qed.
Lemma load_entries n s : NewHamtFromDag n = Ok s -> sentries s = nentries n.
Proof.
  intros H. destruct (load_slots _ _ H) as (p & d & ls & -> & H1 & H2 & _). rewrite sentries_eq, H1, flat_map_map. cbn [nentries]. rewrite H2. reflexivity.
Qed.
Lemma load_subs n s : NewHamtFromDag n = Ok s -> ssubs s = nsubs n.
Proof.
  intros H. destruct (load_slots _ _ H) as (p & d & ls & -> & H1 & H2 & _). rewrite ssubs_eq, H1, flat_map_map. cbn [nsubs]. rewrite H2. reflexivity.
Qed.
Lemma load_weight n s : NewHamtFromDag n = Ok s -> sweight s = nweight n.
Proof.
  intros H. destruct (load_slots _ _ H) as (p & d & ls & -> & H1 & _ & _). rewrite sweight_eq, H1, map_map. reflexivity.
Qed.
Lemma load_good w n s : NewHamtFromDag n = Ok s -> ngood w n -> sgood w s.
Proof.
  intros H. destruct (load_slots _ _ H) as (p & d & ls & -> & H1 & H2 & H3). cbn [ngood]. rewrite fold_all. intros [_ G]. apply sgood_eq. split; [assumption|].
  rewrite H1, Forall_map. rewrite H2 in G. exact G.
Qed.

(** ** Walking the children *)

Lemma entry_dec (a b : bytes * dentry) : {a = b} + {a <> b}.
Proof.
  assert (D : forall x y : node, {x = y} + {x <> y}).
  { intros x y. destruct (node_eqb x y) eqn:E; [left; now apply node_eqb_eq|right]. intros ->. now rewrite node_eqb_refl in E. }
  assert (B : forall x y : bytes, {x = y} + {x <> y}).
  { intros x y. destruct (bytes_eqb x y) eqn:E; [left; now apply bytes_eqb_eq|right]. intros ->. now rewrite bytes_eqb_refl in E. }
  destruct a as [k [z n]], b as [k' [z' n']]. destruct (B k k'); [|right; congruence]. destruct (Z.eq_dec z z'); [|right; congruence]. destruct (D n n'); [left|right]; congruence.
Qed.
Lemma node_dec (x y : node) : {x = y} + {x <> y}.
Proof. destruct (node_eqb x y) eqn:E; [left; now apply node_eqb_eq|right]. intros ->. now rewrite node_eqb_refl in E. Qed.
Definition cnt := count_occ entry_dec.
Definition ncnt := count_occ node_dec.
Lemma cnt_app a b x : cnt (a ++ b) x = (cnt a x + cnt b x)%nat.
Proof. apply count_occ_app. Qed.
Lemma ncnt_app a b x : ncnt (a ++ b) x = (ncnt a x + ncnt b x)%nat.
Proof. apply count_occ_app. Qed.
Lemma cnt_cons e a x : cnt (e :: a) x = (cnt [e] x + cnt a x)%nat.
Proof. apply (cnt_app [e] a). Qed.
Lemma ncnt_cons e a x : ncnt (e :: a) x = (ncnt [e] x + ncnt a x)%nat.
Proof. apply (ncnt_app [e] a). Qed.

Definition jentries (j : job) := flat_map sentries (j_shards j) ++ flat_map nentries (j_cids j).
Definition nsubs1 (n : node) := n :: nsubs n.
Definition jsubs (j : job) := flat_map ssubs (j_shards j) ++ flat_map nsubs1 (j_cids j).
Definition nws (l : list node) : nat := list_sum (map (fun n => S (nweight n)) l).
Definition cws (l : list node) : nat := list_sum (map (fun n => S (S (nweight n))) l).
Definition sws (l : list shard) : nat := list_sum (map sweight l).
Definition jweight (j : job) : nat := (10 + sws (j_shards j) + cws (j_cids j))%nat.
Definition cgood (w : world) (n : node) : Prop := stored w n = true /\ ngood w n.
Definition jgood (w : world) (j : job) : Prop := Forall (sgood w) (j_shards j) /\ Forall (cgood w) (j_cids j).
Definition rentries (r : res job) := match r with Ok j => jentries j | _ => [] end.
Definition rsubs (r : res job) := match r with Ok j => jsubs j | _ => [] end.
Definition rweight (r : res job) : nat := match r with Ok j => jweight j | _ => O end.

Lemma makeShardValue_eq ds l sv : makeShardValue ds l = Ok sv -> s_key sv = skipn (maxpadlen ds) (lname l).
Proof.
  unfold makeShardValue. destruct (makeShard _ _ _) as [v| | |]; try discriminate. cbn [rbind]. destruct (length (lname l) <? maxpadlen ds)%nat; [discriminate|]. intros H. injection H as <-. reflexivity.
Qed.
Lemma walk_slots ds slots : forall ls r, walkSlots ds slots = (ls, r) ->
  (forall x, (cnt (map named ls) x + cnt (rentries r) x <= cnt (flat_map (slot_entries (maxpadlen ds)) slots) x)%nat) /\
  (forall j, r = Ok j -> forall x, (cnt (map named ls) x + cnt (jentries j) x = cnt (flat_map (slot_entries (maxpadlen ds)) slots) x)%nat) /\
  (forall x, (ncnt (rsubs r) x <= ncnt (flat_map (slot_subs (maxpadlen ds)) slots) x)%nat) /\
  (length ls + rweight r <= 10 + list_sum (map slot_weight slots))%nat.
Proof.
  induction slots as [|[l|c] t IH]; intros ls r H.
  - cbn in H. injection H as <- <-. cbn. split; [lia|]. split; [|split; [lia|unfold jweight; cbn; lia]]. intros j E. injection E as <-. reflexivity.
  - cbn [walkSlots] in H. unfold childLinkType in H. destruct (length (lname l) <? maxpadlen ds)%nat eqn:E1.
    { injection H as <- <-. cbn. repeat split; try lia; try discriminate. }
    destruct (length (lname l) =? maxpadlen ds)%nat eqn:E2; cbn [negb] in H.
    + destruct (walkSlots ds t) as [ls' j'] eqn:E3. destruct (IH _ _ eq_refl) as (H1 & H2 & H3 & H4). injection H as <- <-. cbn [flat_map map slot_entries slot_subs slot_weight]. unfold lentries, lsubs. rewrite E2.
      assert (J : forall j x, cnt (jentries (mkJob (lto l :: j_cids j) (j_shards j))) x = (cnt (nentries (lto l)) x + cnt (jentries j) x)%nat) by (intros; unfold jentries; cbn [j_cids j_shards flat_map]; rewrite !cnt_app; lia).
      assert (K : forall j x, ncnt (jsubs (mkJob (lto l :: j_cids j) (j_shards j))) x = (ncnt (nsubs1 (lto l)) x + ncnt (jsubs j) x)%nat) by (intros; unfold jsubs; cbn [j_cids j_shards flat_map]; rewrite !ncnt_app; lia).
      change (list_sum (?a :: ?b)) with (a + list_sum b)%nat.
      destruct j' as [j|e| |]; cbn [rmap rentries rsubs rweight] in *.
      * split; [|split; [|split]].
        -- intros x. rewrite J, cnt_app. specialize (H1 x). lia.
        -- intros j0 E x. injection E as <-. rewrite J, cnt_app. specialize (H2 j eq_refl x). lia.
        -- intros x. rewrite K, ncnt_app. specialize (H3 x). fold (nsubs1 (lto l)). lia.
        -- unfold jweight in *. cbn [j_shards j_cids]. unfold cws in *. cbn [map]. change (list_sum (?a :: ?b)) with (a + list_sum b)%nat. lia.
      * repeat split; try discriminate; intros; rewrite ?cnt_app, ?ncnt_app; try (specialize (H1 x)); try (specialize (H3 x)); cbn in *; try lia.
      * repeat split; try discriminate; intros; rewrite ?cnt_app, ?ncnt_app; try (specialize (H1 x)); try (specialize (H3 x)); cbn in *; try lia.
      * repeat split; try discriminate; intros; rewrite ?cnt_app, ?ncnt_app; try (specialize (H1 x)); try (specialize (H3 x)); cbn in *; try lia.
    + destruct (makeShardValue ds l) as [sv|e| |] eqn:Em; [|injection H as <- <-; cbn; repeat split; try lia; try discriminate ..].
      destruct (walkSlots ds t) as [ls' j'] eqn:E3. destruct (IH _ _ eq_refl) as (H1 & H2 & H3 & H4). injection H as <- <-. cbn [flat_map map slot_entries slot_subs slot_weight]. unfold lentries, lsubs. rewrite E2.
      change (list_sum (?a :: ?b)) with (a + list_sum b)%nat. rewrite (makeShardValue_eq _ _ _ Em). change (named (mkLink (skipn (maxpadlen ds) (lname l)) (lsize l) (lto l))) with (pentry (skipn (maxpadlen ds) (lname l)) l).
      split; [|split; [|split]].
      * intros x. rewrite cnt_app, cnt_cons. specialize (H1 x). lia.
      * intros j E x. rewrite cnt_app, cnt_cons. specialize (H2 j E x). lia.
      * intros x. rewrite ncnt_app. specialize (H3 x). change (ncnt [] x) with O. lia.
      * cbn [length]. lia.
  - cbn [walkSlots] in H. destruct (walkSlots ds t) as [ls' j'] eqn:E3. destruct (IH _ _ eq_refl) as (H1 & H2 & H3 & H4). cbn [flat_map map slot_entries slot_subs slot_weight].
    change (list_sum (?a :: ?b)) with (a + list_sum b)%nat. destruct (s_val c) as [v|]; injection H as <- <-.
    + cbn [map]. change (named (mkLink (s_key c) (lsize v) (lto v))) with (pentry (s_key c) v). split; [|split; [|split]].
      * intros x. rewrite cnt_app, cnt_cons. specialize (H1 x). lia.
      * intros j E x. rewrite cnt_app, cnt_cons. specialize (H2 j E x). lia.
      * intros x. rewrite ncnt_app. specialize (H3 x). change (ncnt [] x) with O. lia.
      * cbn [length]. lia.
    + assert (J : forall j x, cnt (jentries (mkJob (j_cids j) (c :: j_shards j))) x = (cnt (sentries c) x + cnt (jentries j) x)%nat) by (intros; unfold jentries; cbn [j_cids j_shards flat_map]; rewrite !cnt_app; lia).
      assert (K : forall j x, ncnt (jsubs (mkJob (j_cids j) (c :: j_shards j))) x = (ncnt (ssubs c) x + ncnt (jsubs j) x)%nat) by (intros; unfold jsubs; cbn [j_cids j_shards flat_map]; rewrite !ncnt_app; lia).
      destruct j' as [j|e| |]; cbn [rmap rentries rsubs rweight] in *.
      * split; [|split; [|split]].
        -- intros x. rewrite J, cnt_app. specialize (H1 x). lia.
        -- intros j0 E x. injection E as <-. rewrite J, cnt_app. specialize (H2 j eq_refl x). lia.
        -- intros x. rewrite K, ncnt_app. specialize (H3 x). lia.
        -- unfold jweight in *. cbn [j_shards j_cids]. unfold sws in *. cbn [map]. change (list_sum (?a :: ?b)) with (a + list_sum b)%nat. lia.
      * repeat split; try discriminate; intros; rewrite ?cnt_app, ?ncnt_app; try (specialize (H1 x)); try (specialize (H3 x)); cbn in *; try lia.
      * repeat split; try discriminate; intros; rewrite ?cnt_app, ?ncnt_app; try (specialize (H1 x)); try (specialize (H3 x)); cbn in *; try lia.
      * repeat split; try discriminate; intros; rewrite ?cnt_app, ?ncnt_app; try (specialize (H1 x)); try (specialize (H3 x)); cbn in *; try lia.
Qed.
Lemma walk_children s ls r : walkChildren s = (ls, r) ->
  (forall x, (cnt (map named ls) x + cnt (rentries r) x <= cnt (sentries s) x)%nat) /\
  (forall j, r = Ok j -> forall x, (cnt (map named ls) x + cnt (jentries j) x = cnt (sentries s) x)%nat) /\
  (forall x, (ncnt (rsubs r) x <= ncnt (ssubs s) x)%nat) /\
  (10 + length ls + rweight r <= sweight s)%nat.
Proof.
  intros H. destruct (walk_slots _ _ _ _ H) as (H1 & H2 & H3 & H4). rewrite sentries_eq, ssubs_eq, sweight_eq. split; [exact H1|]. split; [exact H2|]. split; [exact H3|]. lia.
Qed.
Lemma walk_slots_good w ds slots : (exists v, makeShard (s_size ds) [] None = Ok v) -> Forall (slot_good w (maxpadlen ds)) slots ->
  exists ls j, walkSlots ds slots = (ls, Ok j) /\ jgood w j.
Proof.
  intros [v Hv]. induction 1 as [|[l|c] t H _ (ls & j & E & G1 & G2)].
  - eexists _, _. split; [reflexivity|]. split; constructor.
  - cbn [walkSlots slot_good] in *. destruct H as [H1 H2]. unfold childLinkType. replace (length (lname l) <? maxpadlen ds)%nat with false by (symmetry; apply Nat.ltb_ge; lia).
    destruct (length (lname l) =? maxpadlen ds)%nat eqn:E2; cbn [negb].
    + apply Nat.eqb_eq in E2. rewrite E. eexists _, _. split; [reflexivity|]. split; [assumption|]. cbn [j_cids]. constructor; [exact (H2 E2)|assumption].
    + unfold makeShardValue. rewrite Hv. cbn [rbind]. replace (length (lname l) <? maxpadlen ds)%nat with false by (symmetry; apply Nat.ltb_ge; lia). rewrite E. eexists _, _. split; [reflexivity|]. split; assumption.
  - cbn [walkSlots slot_good] in *. rewrite E. destruct (s_val c); eexists _, _; (split; [reflexivity|]); split; try assumption. cbn [j_shards]. constructor; assumption.
Qed.
Lemma walk_children_good w s : sgood w s -> exists ls j, walkChildren s = (ls, Ok j) /\ jgood w j.
Proof. intros H. apply sgood_eq in H as [H1 H2]. now apply walk_slots_good. Qed.

Lemma dserv_get_eq w n nd : dserv_get w n = Ok nd -> nd = n.
Proof. unfold dserv_get. destruct (_ && _); [congruence|discriminate]. Qed.
Lemma nweight_pos n : (20 <= nweight n)%nat.
Proof. destruct n; cbn [nweight]; lia. Qed.
Lemma walk_fetched w n ls r : walkFetched w n = (ls, r) ->
  (forall x, (cnt (map named ls) x + cnt (rentries r) x <= cnt (nentries n) x)%nat) /\
  (forall j, r = Ok j -> forall x, (cnt (map named ls) x + cnt (jentries j) x = cnt (nentries n) x)%nat) /\
  (forall x, (ncnt (rsubs r) x <= ncnt (nsubs n) x)%nat) /\
  (10 + length ls + rweight r <= nweight n)%nat.
Proof.
  intros H. pose proof (nweight_pos n). unfold walkFetched in H. destruct (dserv_get w n) as [nd|e| |] eqn:E.
  - apply dserv_get_eq in E as ->. destruct (NewHamtFromDag n) as [s|e| |] eqn:E2.
    + rewrite <- (load_entries _ _ E2), <- (load_subs _ _ E2), <- (load_weight _ _ E2). now apply walk_children.
    + injection H as <- <-. cbn. repeat split; try discriminate; intros; lia.
    + injection H as <- <-. cbn. repeat split; try discriminate; intros; lia.
    + injection H as <- <-. cbn. repeat split; try discriminate; intros; lia.
  - injection H as <- <-. cbn. repeat split; try discriminate; intros; lia.
  - injection H as <- <-. cbn. repeat split; try discriminate; intros; lia.
  - injection H as <- <-. cbn. repeat split; try discriminate; intros; lia.
Qed.
(** Whether some block cannot be fetched. *)
Definition unfetchable (w : world) : Prop := exists n, w_getok w n = false.
Lemma walk_fetched_good w n : cgood w n -> (exists ls j, walkFetched w n = (ls, Ok j) /\ jgood w j) \/ (walkFetched w n = ([], Err EFetch) /\ unfetchable w).
Proof.
  intros [Hs Hg]. unfold walkFetched, dserv_get. rewrite Hs. cbn [andb]. destruct (w_getok w n) eqn:E; [left|right; split; [reflexivity|now exists n]].
  destruct n as [|p d l]; [now cbn in Hg|]. pose proof Hg as Hg'. cbn [ngood] in Hg'. destruct Hg' as [[s Hl] _]. rewrite Hl. apply walk_children_good. exact (load_good _ _ _ Hl Hg).
Qed.

(** ** States *)

Definition kentries (k : cont) :=
  match k with KShards ss cs => flat_map sentries ss ++ flat_map nentries cs | KFetch todo => flat_map nentries todo end.
Definition ksubs (k : cont) :=
  match k with KShards ss cs => flat_map ssubs ss ++ flat_map nsubs1 cs | KFetch todo => flat_map nsubs todo end.
Definition kweight (k : cont) : nat :=
  match k with KShards ss cs => 5 + sws ss + cws cs | KFetch todo => 3 + nws todo end%nat.
Definition kgood w (k : cont) : Prop :=
  match k with KShards ss cs => Forall (sgood w) ss /\ Forall (cgood w) cs | KFetch todo => Forall (cgood w) todo end.
Definition wentries (x : worker) :=
  match x with
  | Idle | Finish | Exited => []
  | Shards ss cs => flat_map sentries ss ++ flat_map nentries cs
  | Emit ls r k => map named ls ++ rentries r ++ kentries k
  | Send j k => jentries j ++ kentries k
  | Visit cs todo => flat_map nentries cs ++ flat_map nentries todo
  | Fetch todo => flat_map nentries todo
  end.
Definition wsubs (x : worker) :=
  match x with
  | Idle | Finish | Exited => []
  | Shards ss cs => flat_map ssubs ss ++ flat_map nsubs1 cs
  | Emit ls r k => rsubs r ++ ksubs k
  | Send j k => jsubs j ++ ksubs k
  | Visit cs todo => flat_map nsubs1 cs ++ flat_map nsubs todo
  | Fetch todo => flat_map nsubs todo
  end.
Definition wweight (x : worker) : nat :=
  match x with
  | Exited => 0
  | Idle => 1
  | Finish => 2
  | Shards ss cs => 5 + sws ss + cws cs
  | Emit ls r k => 2 + length ls + rweight r + kweight k
  | Send j k => 1 + jweight j + kweight k
  | Visit cs todo => 4 + cws cs + nws todo
  | Fetch todo => 3 + nws todo
  end%nat.
Definition rgood w (r : res job) : Prop := match r with Ok j => jgood w j | Err e => e = EFetch /\ unfetchable w | _ => False end.
Definition wgood w (x : worker) : Prop :=
  match x with
  | Idle | Finish | Exited => True
  | Shards ss cs => Forall (sgood w) ss /\ Forall (cgood w) cs
  | Emit ls r k => rgood w r /\ kgood w k
  | Send j k => jgood w j /\ kgood w k
  | Visit cs todo => Forall (cgood w) cs /\ Forall (cgood w) todo
  | Fetch todo => Forall (cgood w) todo
  end.
Definition opt_list {A} (o : option A) : list A := match o with Some a => [a] | None => [] end.
Definition jobs (s : walk) : list job := opt_list (w_next s) ++ w_queue s.
Definition pend (s : walk) := flat_map wentries (w_workers s) ++ flat_map jentries (jobs s).
Definition pendsubs (s : walk) := flat_map wsubs (w_workers s) ++ flat_map jsubs (jobs s).
Definition weight (s : walk) : nat :=
  (list_sum (map wweight (w_workers s)) + list_sum (map jweight (jobs s)) + (if w_run s then 1 else 0) + (if w_cancel s then 0 else 1))%nat.

Lemma list_sum_app a b : list_sum (a ++ b) = (list_sum a + list_sum b)%nat.
Proof. induction a as [|x a IH]; [reflexivity|]. cbn [app list_sum fold_right]. unfold list_sum in *. cbn [fold_right]. lia. Qed.
Lemma list_sum_cons x b : list_sum (x :: b) = (x + list_sum b)%nat.
Proof. reflexivity. Qed.
Lemma pop_jobs q : opt_list (fst (pop q)) ++ snd (pop q) = q.
Proof. now destruct q. Qed.
Lemma push_jobs j nx q : (nx = None -> q = []) -> exists a b, opt_list nx ++ q = a ++ b /\ opt_list (fst (push j nx q)) ++ snd (push j nx q) = a ++ j :: b.
Proof.
  intros H. destruct nx as [y|]; cbn; [exists (y :: q), []; split; [now rewrite app_nil_r|reflexivity]|]. rewrite H by reflexivity. exists [], []. auto.
Qed.
Lemma push_jobs' j nx q : exists a b, opt_list nx ++ q = a ++ b /\ opt_list (fst (push j nx q)) ++ snd (push j nx q) = a ++ j :: b.
Proof. destruct nx as [y|]; cbn; [exists (y :: q), []; split; [now rewrite app_nil_r|reflexivity]|exists [], q; auto]. Qed.

(** *** Every step reduces the work left *)

Lemma nws_app a b : nws (a ++ b) = (nws a + nws b)%nat.
Proof. unfold nws. now rewrite map_app, list_sum_app. Qed.
Lemma nws_cons n b : nws (n :: b) = (S (nweight n) + nws b)%nat.
Proof. reflexivity. Qed.
Lemma cws_cons n b : cws (n :: b) = (S (S (nweight n)) + cws b)%nat.
Proof. reflexivity. Qed.
Lemma sws_cons n b : sws (n :: b) = (sweight n + sws b)%nat.
Proof. reflexivity. Qed.
Lemma step_weight w mayc s t : wstep w mayc s t -> (weight t < weight s)%nat.
Proof.
  intros H. destruct H; unfold weight, jobs; cbn [w_workers w_next w_queue w_run w_cancel]; rewrite ?map_app, ?list_sum_app; cbn [map]; rewrite ?list_sum_cons; cbn [wweight kweight resume rweight length].
  - rewrite <- list_sum_app, <- map_app, pop_jobs. cbn [opt_list app map]. rewrite list_sum_cons. unfold jweight. lia.
  - rewrite sws_cons. pose proof (walk_children s _ _ (surjective_pairing _)) as (_ & _ & _ & Hw). cbn [list_sum]. lia.
  - change (nws []) with O. change (sws []) with O. lia.
  - lia.
  - lia.
  - lia.
  - lia.
  - destruct (push_jobs' j nx q) as (x & y & E1 & E2). apply (f_equal (fun l => list_sum (map jweight l))) in E1, E2. rewrite !map_app, !list_sum_app in E1, E2. cbn [map] in E2. rewrite list_sum_cons in E2.
    destruct k; cbn [resume wweight kweight]; lia.
  - lia.
  - rewrite nws_app, nws_cons, cws_cons. change (nws []) with O. lia.
  - rewrite cws_cons. lia.
  - change (cws []) with O. lia.
  - rewrite !nws_app, nws_cons. pose proof (walk_fetched w n _ _ (surjective_pairing _)) as (_ & _ & _ & Hw). lia.
  - lia.
  - lia.
  - destruct (negb _); lia.
  - lia.
  - lia.
  - lia.
  - lia.
Qed.

(** *** What is delivered *)

Lemma cnt_ws a x b e : cnt (flat_map wentries (a ++ x :: b)) e = (cnt (flat_map wentries a) e + cnt (wentries x) e + cnt (flat_map wentries b) e)%nat.
Proof. rewrite flat_map_app, cnt_app. cbn [flat_map]. rewrite cnt_app. lia. Qed.
Lemma ncnt_ws a x b e : ncnt (flat_map wsubs (a ++ x :: b)) e = (ncnt (flat_map wsubs a) e + ncnt (wsubs x) e + ncnt (flat_map wsubs b) e)%nat.
Proof. rewrite flat_map_app, ncnt_app. cbn [flat_map]. rewrite ncnt_app. lia. Qed.
Lemma cnt_fm {A} (f : A -> list (bytes * dentry)) a x b e : cnt (flat_map f (a ++ x :: b)) e = (cnt (flat_map f a) e + cnt (f x) e + cnt (flat_map f b) e)%nat.
Proof. rewrite flat_map_app, cnt_app. cbn [flat_map]. rewrite cnt_app. lia. Qed.
Lemma ncnt_fm {A} (f : A -> list node) a x b e : ncnt (flat_map f (a ++ x :: b)) e = (ncnt (flat_map f a) e + ncnt (f x) e + ncnt (flat_map f b) e)%nat.
Proof. rewrite flat_map_app, ncnt_app. cbn [flat_map]. rewrite ncnt_app. lia. Qed.

Definition okres (x : worker) : Prop := match x with Emit _ (Ok _) _ => True | Emit _ _ _ => False | _ => True end.
Definition clean (s : walk) : Prop := grp_done s = false /\ Forall okres (w_workers s).

Lemma push_cnt j nx q e : cnt (flat_map jentries (opt_list (fst (push j nx q)) ++ snd (push j nx q))) e = (cnt (jentries j) e + cnt (flat_map jentries (opt_list nx ++ q)) e)%nat.
Proof. destruct (push_jobs' j nx q) as (a & b & -> & ->). rewrite cnt_fm, flat_map_app, cnt_app. lia. Qed.
Lemma push_ncnt j nx q e : ncnt (flat_map jsubs (opt_list (fst (push j nx q)) ++ snd (push j nx q))) e = (ncnt (jsubs j) e + ncnt (flat_map jsubs (opt_list nx ++ q)) e)%nat.
Proof. destruct (push_jobs' j nx q) as (a & b & -> & ->). rewrite ncnt_fm, flat_map_app, ncnt_app. lia. Qed.

Definition subs_inv (s : walk) : Prop := forall n, (ncnt (w_seen s) n + ncnt (pendsubs s) n <= 1)%nat.
Lemma step_subs w mayc s t : wstep w mayc s t -> subs_inv s -> subs_inv t.
Proof.
  intros H I z. specialize (I z). unfold pendsubs, jobs in *.
  destruct H; cbn [w_workers w_next w_queue w_seen] in *; rewrite ?ncnt_app, ?ncnt_ws in *; cbn [wsubs ksubs resume rsubs] in *; rewrite ?ncnt_app in *; rewrite ?pop_jobs; try (cbn [ncnt count_occ] in *; lia).
  - cbn [opt_list app flat_map] in I. rewrite ncnt_app in I. unfold jsubs in I at 1. rewrite ncnt_app in I. cbn in I |- *. lia.
  - pose proof (walk_children s _ _ (surjective_pairing _)) as (_ & _ & Hw & _). specialize (Hw z). cbn [flat_map] in I. rewrite ncnt_app in I. lia.
  - cbn [flat_map] in *. change (ncnt [] z) with O. lia.
  - rewrite push_ncnt. destruct k; cbn [resume wsubs ksubs] in *; rewrite ?ncnt_app in *; lia.
  - rewrite (ncnt_cons n seen), flat_map_app, ncnt_app. cbn [flat_map] in *. rewrite app_nil_r, ?ncnt_app in *. unfold nsubs1 in I at 1. rewrite ncnt_cons in I. lia.
  - cbn [flat_map] in *. rewrite ncnt_app in I. lia.
  - pose proof (walk_fetched w n _ _ (surjective_pairing _)) as (_ & _ & Hw & _). specialize (Hw z). rewrite ncnt_fm in I. rewrite flat_map_app, ncnt_app. lia.
Qed.

Definition below (root : shard) (s : walk) : Prop := forall x, (cnt (map named (w_out s)) x + cnt (pend s) x <= cnt (sentries root) x)%nat.
Definition exact_ (root : shard) (s : walk) : Prop := forall x, (cnt (map named (w_out s)) x + cnt (pend s) x = cnt (sentries root) x)%nat.
Lemma existsb_seen n seen : existsb (node_eqb n) seen = true -> (1 <= ncnt seen n)%nat.
Proof. intros H. apply existsb_exists in H as (m & Hm & E). apply node_eqb_eq in E as ->. now apply count_occ_In. Qed.
Lemma step_below w mayc root s t : wstep w mayc s t -> below root s -> below root t.
Proof.
  intros H I z. specialize (I z). unfold pend, jobs in *.
  destruct H; cbn [w_workers w_next w_queue w_out] in *; rewrite ?cnt_app, ?cnt_ws in *; cbn [wentries kentries resume rentries map] in *; rewrite ?map_app, ?cnt_app in *; rewrite ?pop_jobs; try (cbn [cnt count_occ] in *; lia).
  - cbn [opt_list app flat_map] in I. rewrite cnt_app in I. unfold jentries in I at 1. rewrite cnt_app in I. change (cnt [] z) with O in I. lia.
  - pose proof (walk_children s _ _ (surjective_pairing _)) as (Hw & _). specialize (Hw z). cbn [flat_map] in I. rewrite cnt_app in I. lia.
  - cbn [flat_map] in *. change (cnt [] z) with O. lia.
  - cbn [map]. rewrite (cnt_cons (named l)) in I. lia.
  - rewrite (cnt_cons (named l)) in I. lia.
  - rewrite push_cnt. destruct k; cbn [resume wentries kentries] in *; rewrite ?cnt_app in *; lia.
  - rewrite flat_map_app, cnt_app. cbn [flat_map] in *. rewrite app_nil_r, ?cnt_app in *. lia.
  - cbn [flat_map] in *. rewrite cnt_app in I. lia.
  - pose proof (walk_fetched w n _ _ (surjective_pairing _)) as (Hw & _). specialize (Hw z). rewrite cnt_fm in I. rewrite flat_map_app, cnt_app. lia.
Qed.

Lemma clean_back w mayc s t : wstep w mayc s t -> clean t -> clean s.
Proof.
  intros H [G F]. destruct H; unfold clean, grp_done in *; cbn [w_workers w_cancel w_err] in *; try (rewrite H in G; discriminate); try (destruct e; cbn in G; rewrite ?orb_true_r in G; discriminate).
  all: try (split; [assumption|]; rewrite Forall_app, Forall_cons_iff in *; cbn [okres] in *; tauto).
  all: try discriminate.
Qed.
Lemma step_exact w mayc root s t : wstep w mayc s t -> clean t -> subs_inv s -> exact_ root s -> exact_ root t.
Proof.
  intros H C N I z. specialize (I z). pose proof C as [G F]. unfold pend, jobs in *.
  destruct H; cbn [w_workers w_next w_queue w_out] in *; rewrite ?cnt_app, ?cnt_ws in *; cbn [wentries kentries resume rentries map] in *; rewrite ?map_app, ?cnt_app in *; rewrite ?pop_jobs; try (cbn [cnt count_occ] in *; lia).
  - cbn [opt_list app flat_map] in I. rewrite cnt_app in I. unfold jentries in I at 1. rewrite cnt_app in I. change (cnt [] z) with O in I. lia.
  - pose proof (walk_children s _ _ (surjective_pairing _)) as (_ & Hw & _). rewrite Forall_app, Forall_cons_iff in F. cbn [okres] in F. destruct F as (_ & F & _).
    destruct (snd (walkChildren s)) as [j| | |]; try contradiction. specialize (Hw j eq_refl z). cbn [flat_map rentries] in *. rewrite cnt_app in I. lia.
  - cbn [flat_map] in *. change (cnt [] z) with O in *. lia.
  - cbn [map]. rewrite (cnt_cons (named l)) in I. lia.
  - unfold grp_done in G. cbn in G. discriminate.
  - unfold grp_done in G. cbn [w_cancel w_err] in G. destruct e; cbn in G; rewrite orb_true_r in G; discriminate.
  - rewrite push_cnt. destruct k; cbn [resume wentries kentries] in *; rewrite ?cnt_app in *; lia.
  - unfold grp_done in G. cbn [w_cancel w_err] in G. rewrite H in G. discriminate.
  - rewrite flat_map_app, cnt_app. cbn [flat_map] in *. rewrite app_nil_r, ?cnt_app in *. lia.
  - exfalso. specialize (N n). unfold pendsubs in N. cbn [w_seen w_workers] in N. rewrite ncnt_app, ncnt_ws in N. cbn [wsubs flat_map] in N. rewrite !ncnt_app in N. unfold nsubs1 in N at 1. rewrite ncnt_cons in N.
    apply existsb_seen in H. assert (ncnt [n] n = 1)%nat by (cbn; destruct (node_dec n n); congruence). lia.
  - cbn [flat_map] in *. change (cnt [] z) with O in *. lia.
  - pose proof (walk_fetched w n _ _ (surjective_pairing _)) as (_ & Hw & _). rewrite Forall_app, Forall_cons_iff in F. cbn [okres] in F. destruct F as (_ & F & _).
    destruct (snd (walkFetched w n)) as [j| | |]; try contradiction. specialize (Hw j eq_refl z). rewrite cnt_fm in I. rewrite flat_map_app, cnt_app. cbn [rentries]. lia.
  - unfold grp_done in G. cbn [w_cancel w_err] in G. rewrite orb_true_iff in H. destruct H as [H|H]; [rewrite H in G; discriminate|]. destruct e; [cbn in G; rewrite orb_true_r in G|]; discriminate.
  - cbn [flat_map] in *. change (cnt [] z) with O in *. lia.
Qed.

(** *** Errors *)

Definition good_inv (w : world) (s : walk) : Prop :=
  Forall (wgood w) (w_workers s) /\ Forall (jgood w) (jobs s) /\
  (w_cancel s = false -> match w_err s with None => True | Some e => e = EFetch /\ unfetchable w end).
Lemma kgood_resume w k : kgood w k -> wgood w (resume k).
Proof. now destruct k. Qed.
Lemma step_good w mayc s t : wstep w mayc s t -> good_inv w s -> good_inv w t.
Proof.
  intros H (I1 & I2 & I3). unfold good_inv, jobs in *.
  assert (N : Forall (cgood w) []) by constructor.
  destruct H; cbn [w_workers w_next w_queue w_cancel w_err] in *; rewrite ?pop_jobs; rewrite ?Forall_app, ?Forall_cons_iff in I1; rewrite ?(Forall_app (wgood w)), ?Forall_cons_iff; cbn [wgood rgood kgood] in *.
  all: try tauto.
  - cbn [opt_list app] in I2. rewrite Forall_cons_iff in I2. unfold jgood in I2 at 1. tauto.
  - destruct I1 as (A & [B1 B2] & C). rewrite Forall_cons_iff in B1. destruct B1 as [B0 B1]. destruct (walk_children_good w s B0) as (ls & j & -> & G). cbn [fst snd rgood]. tauto.
  - split; [tauto|]. split; [tauto|]. intros Hc. specialize (I3 Hc). destruct e; cbn [set_err]; tauto.
  - destruct I1 as (A & [B1 B2] & C). split; [split; [assumption|]; split; [now apply kgood_resume|assumption]|]. split; [|assumption].
    destruct (push_jobs' j nx q) as (x & y & E1 & E2). rewrite E1 in I2. rewrite E2. rewrite Forall_app, ?Forall_cons_iff in *. tauto.
  - destruct I1 as (A & [B1 B2] & C). rewrite Forall_cons_iff in B1. rewrite Forall_app, Forall_cons_iff. tauto.
  - destruct I1 as (A & [B1 B2] & C). rewrite Forall_cons_iff in B1. tauto.
  - destruct I1 as (A & B & C). rewrite Forall_app, Forall_cons_iff in B. destruct B as (B1 & B2 & B3).
    assert (G : rgood w (snd (walkFetched w n))).
    { destruct (walk_fetched_good w n B2) as [(ls & j & -> & G)|[-> G]]; cbn [snd rgood]; auto. }
    rewrite Forall_app. tauto.
  - split; [tauto|]. split; [tauto|]. intros Hc. subst c. cbn in H. destruct e; [|discriminate]. cbn [set_err]. now apply I3.
Qed.

(** *** Never stuck *)

Definition busy (x : worker) : bool := match x with Idle | Exited => false | _ => true end.
Definition nbusy (l : list worker) : nat := length (filter busy l).
Lemma nbusy_mid a x b : nbusy (a ++ x :: b) = (nbusy a + (if busy x then 1 else 0) + nbusy b)%nat.
Proof. unfold nbusy. rewrite filter_app, app_length. cbn [filter]. destruct (busy x); cbn [length]; lia. Qed.
Definition proto (n : nat) (s : walk) : Prop :=
  length (w_workers s) = n /\
  (grp_done s = false ->
   if w_run s
   then w_prog s = nbusy (w_workers s) /\ Forall (fun x => x <> Exited) (w_workers s) /\ (w_next s = None -> w_queue s = [] /\ (0 < w_prog s)%nat)
   else nbusy (w_workers s) = O /\ w_next s = None /\ w_queue s = []).
Lemma step_proto w mayc n s t : wstep w mayc s t -> proto n s -> proto n t.
Proof.
  intros H [I1 I2]. unfold proto, grp_done in *.
  destruct H; cbn [w_workers w_next w_queue w_cancel w_err w_run w_prog] in *;
    (split; [rewrite ?app_length in *; cbn [length] in *; lia|]);
    intros G; try (rewrite H in G; discriminate); try (destruct e; cbn in G; rewrite ?orb_true_r in G; discriminate).
  all: try specialize (I2 G); rewrite ?nbusy_mid in *; cbn [busy] in *; rewrite ?Forall_app, ?Forall_cons_iff in *.
  all: try (destruct run; [|lia]; destruct I2 as (A & B & C); rewrite ?Forall_app, ?Forall_cons_iff in *; split; [lia|]; split; [|assumption]; intuition congruence).
  - destruct I2 as (A & B & C). split; [lia|]. split; [intuition congruence|]. destruct q; cbn [pop fst snd]; [|discriminate]. intros _. split; [reflexivity|lia].
  - destruct I2 as (A & B & C). split; [destruct k; cbn [resume busy]; lia|]. split; [destruct k; cbn [resume]; intuition congruence|]. destruct nx; cbn [push fst snd]; discriminate.
  - destruct I2 as (A & B & C). destruct (pred p =? 0)%nat eqn:E; cbn [andb negb].
    + apply Nat.eqb_eq in E. destruct nx as [j|]; cbn [negb].
      * split; [lia|]. rewrite ?Forall_app, ?Forall_cons_iff in *. split; [intuition congruence|discriminate].
      * split; [lia|]. split; [reflexivity|]. now apply C.
    + apply Nat.eqb_neq in E. split; [lia|]. rewrite ?Forall_app, ?Forall_cons_iff in *. split; [intuition congruence|]. intros Hn. destruct (C Hn). split; [assumption|lia].
  - exact I2.
Qed.
Lemma worker_steps w mayc s a x b : w_workers s = a ++ x :: b -> busy x = true -> w_run s = true \/ grp_done s = true ->
  walk_crashed s \/ exists t, wstep w mayc s t.
Proof.
  destruct s as [ws nx q p run seen out c e]. cbn [w_workers w_run]. unfold grp_done. cbn [w_cancel w_err]. intros -> Hb Hr.
  destruct x as [|ss cs|ls r k|j k|cs todo|todo| |]; try discriminate.
  - right. destruct ss as [|s ss]; eexists; [apply S_shards_end|apply S_shard].
  - destruct ls as [|l ls]; [|right; eexists; apply S_emit]. destruct r as [j|e0| |]; [right; eexists; apply S_emit_ok|right; eexists; apply S_emit_err| |].
    + left. exists k, Panic. split; [apply in_app_iff; right; now left|now left].
    + left. exists k, Fuel. split; [apply in_app_iff; right; now left|now right].
  - right. destruct Hr as [->|Hr]; eexists; [apply S_out|now apply S_out_cancel].
  - right. destruct cs as [|n cs]; [eexists; apply S_visit_end|]. destruct (existsb (node_eqb n) seen) eqn:E; eexists; [now apply S_visit_seen|now apply S_visit].
  - right. destruct todo as [|n todo]; [eexists; apply S_fetch_end|]. eexists. apply (S_fetch w mayc a b [] n todo).
  - right. destruct Hr as [->|Hr]; eexists; [apply S_done|now apply S_done_cancel].
Qed.
Lemma find_busy l : (0 < nbusy l)%nat -> exists a x b, l = a ++ x :: b /\ busy x = true.
Proof.
  unfold nbusy. induction l as [|x l IH]; cbn; [lia|]. destruct (busy x) eqn:E; [intros _; exists [], x, l; auto|]. intros H. destruct (IH H) as (a & y & b & -> & Hy). exists (x :: a), y, b. auto.
Qed.
Lemma find_left l : Forall (fun x => x = Exited) l \/ exists a x b, l = a ++ x :: b /\ x <> Exited.
Proof.
  induction l as [|x l [IH|(a & y & b & -> & H)]]; [left; constructor| |right; exists (x :: a), y, b; auto].
  destruct x; try (right; eexists [], _, l; split; [reflexivity|discriminate]). left. constructor; [reflexivity|assumption].
Qed.
Lemma progress w mayc n s : proto n s -> (0 < n)%nat -> walk_over s \/ walk_crashed s \/ exists t, wstep w mayc s t.
Proof.
  intros [Hn HI] Hpos. destruct (grp_done s) eqn:G.
  - destruct (w_run s) eqn:R.
    + right. right. destruct s as [ws nx q p run seen out c e]. cbn in R. subst run. eexists. now apply S_stop.
    + destruct (find_left (w_workers s)) as [F|(a & x & b & E & Hx)]; [left; split; assumption|]. right.
      destruct (busy x) eqn:B; [now apply (worker_steps w mayc s a x b E B); right|]. destruct x; try discriminate; [|congruence]. right.
      destruct s as [ws nx q p run seen out c e]. cbn in R, E. subst. eexists. apply S_exit.
  - specialize (HI eq_refl). destruct (w_run s) eqn:R.
    + destruct HI as (A & B & C). right. destruct (w_next s) as [j|] eqn:Nx.
      * destruct (w_workers s) as [|x l] eqn:E; [cbn in Hn; lia|]. destruct (busy x) eqn:Bx; [now apply (worker_steps w mayc s [] x l E Bx); left|].
        inversion B; subst. destruct x; try discriminate; [|congruence]. right. destruct s as [ws nx q p run seen out c e]. cbn in R, E, Nx. subst. eexists. apply (S_feed w mayc [] l).
      * destruct (C eq_refl) as [_ P]. rewrite A in P. destruct (find_busy _ P) as (a & x & b & E & Bx). apply (worker_steps w mayc s a x b E Bx). now left.
    + destruct (find_left (w_workers s)) as [F|(a & x & b & E & Hx)]; [left; split; assumption|]. destruct HI as (A & _). rewrite E, nbusy_mid in A. destruct (busy x) eqn:B; [lia|].
      destruct x; try discriminate; [|congruence]. right. right. destruct s as [ws nx q p run seen out c e]. cbn in R, E. subst. eexists. apply S_exit.
Qed.

(** *** From the start *)

Lemma start_proto n root : proto n (walk_start n root).
Proof.
  split; [apply repeat_length|]. intros _. cbn [walk_start w_run w_prog w_workers w_next]. split; [|split; [|discriminate]].
  - unfold nbusy. induction n; [reflexivity|assumption].
  - apply Forall_forall. intros x Hx. apply repeat_spec in Hx as ->. discriminate.
Qed.
Lemma flat_map_idle {B} (f : worker -> list B) n : f Idle = [] -> flat_map f (repeat Idle n) = [].
Proof. intros H. induction n as [|n IH]; [reflexivity|]. cbn. now rewrite H, IH. Qed.
Lemma start_pend n root x : cnt (pend (walk_start n root)) x = cnt (sentries root) x.
Proof. unfold pend, jobs. cbn [walk_start w_workers w_next w_queue opt_list]. rewrite flat_map_idle by reflexivity. cbn. unfold jentries. cbn. now rewrite !app_nil_r. Qed.
Lemma start_subs n root x : ncnt (pendsubs (walk_start n root)) x = ncnt (ssubs root) x.
Proof. unfold pendsubs, jobs. cbn [walk_start w_workers w_next w_queue opt_list]. rewrite flat_map_idle by reflexivity. cbn. unfold jsubs. cbn. now rewrite !app_nil_r. Qed.
Lemma start_good w n root : sgood w root -> good_inv w (walk_start n root).
Proof.
  intros H. split; [|split; [|intros _; exact I]].
  - apply Forall_forall. intros x Hx. apply repeat_spec in Hx as ->. exact I.
  - repeat constructor. assumption.
Qed.

Section Run.
  Variables (w : world) (mayc : bool) (n : nat) (root : shard).
  Lemma run_proto s : wsteps w mayc (walk_start n root) s -> proto n s.
  Proof. intros H. remember (walk_start n root) as s0. induction H; subst; [apply start_proto|]. eapply step_proto; eauto. Qed.
  Lemma run_below s : wsteps w mayc (walk_start n root) s -> below root s.
  Proof. intros H. remember (walk_start n root) as s0. induction H; subst; [intros x; rewrite start_pend; cbn; lia|]. eapply step_below; eauto. Qed.
  Lemma run_subs s : NoDup (ssubs root) -> wsteps w mayc (walk_start n root) s -> subs_inv s.
  Proof.
    intros N H. remember (walk_start n root) as s0. induction H; subst; [|eapply step_subs; eauto]. intros x. rewrite start_subs. cbn. now apply NoDup_count_occ.
  Qed.
  Lemma run_exact s : NoDup (ssubs root) -> wsteps w mayc (walk_start n root) s -> clean s -> exact_ root s.
  Proof.
    intros N H. pose proof N as N'. remember (walk_start n root) as s0. induction H as [|s1 t u H1 IH H2]; subst; intros C; [intros x; rewrite start_pend; reflexivity|].
    specialize (IH eq_refl). eapply step_exact; eauto; [now apply run_subs|]. apply IH. eapply clean_back; eauto.
  Qed.
  Lemma run_good s : sgood w root -> wsteps w mayc (walk_start n root) s -> good_inv w s.
  Proof. intros G H. remember (walk_start n root) as s0. induction H; subst; [now apply start_good|]. eapply step_good; eauto. Qed.

  Lemma over_pend s : proto n s -> walk_over s -> grp_done s = false -> pend s = [].
  Proof.
    intros [_ P] [F R] G. specialize (P G). rewrite R in P. destruct P as (_ & P1 & P2). unfold pend, jobs. rewrite P1, P2. cbn. rewrite app_nil_r.
    clear - F. induction F as [|x l -> _ IH]; [reflexivity|]. cbn. assumption.
  Qed.
  Lemma over_clean s : walk_over s -> grp_done s = false -> clean s.
  Proof. intros [F _] G. split; [assumption|]. eapply Forall_impl; [|exact F]. intros x ->. exact I. Qed.
End Run.
