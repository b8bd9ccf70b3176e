(** Lemmas about the builder helper. *)
From Verif Require Import Base Pb PbProofs FSNode FSNodeProofs Dag DagProofs Builder SpecFile SpecStore.

(** ** Input *)

Definition pend (d : db) : list event :=
  match db_err d with
  | Some e => EvErr e :: db_spl d
  | None => match db_next d with Some b => EvData b :: db_spl d | None => db_spl d end
  end.

Lemma pend_prepare d : pend (prepareNext d) = pend d.
Proof.
  unfold prepareNext, pend. destruct d as [spl nx er]; cbn.
  destruct nx, er; cbn; try reflexivity. destruct spl as [|[b|e] r]; reflexivity.
Qed.

Lemma Done_spec d : Done d = (Ok (match pend d with [] => true | _ => false end), prepareNext d).
Proof.
  unfold Done, prepareNext, pend. destruct d as [spl nx er]; cbn.
  destruct nx, er; cbn; try reflexivity. destruct spl as [|[b|e] r]; reflexivity.
Qed.

(** Same configuration and store, and the input advanced over the data [cs]. *)
Record db_step (d d' : db) (cs : list bytes) (added : list xnode) : Prop := {
  st_pend : pend d = map EvData cs ++ pend d';
  st_raw : db_raw d' = db_raw d;
  st_max : db_maxlinks d' = db_maxlinks d;
  st_builder : db_builder d' = db_builder d;
  st_fs : db_fs d' = db_fs d;
  st_off : db_offset d' = if db_fs d && db_raw d then u64 (db_offset d + zlen (concat cs)) else db_offset d;
  st_offr : 0 <= db_offset d < two64;
  st_added : w_added (db_w d') = w_added (db_w d) ++ added;
  st_has : w_has (db_w d') = w_has (db_w d);
  st_addok : w_addok (db_w d') = w_addok (db_w d);
  st_getok : w_getok (db_w d') = w_getok (db_w d)
}.

Lemma zlen_concat_app (a b : list bytes) : zlen (concat (a ++ b)) = zlen (concat a) + zlen (concat b).
Proof. unfold bytes in *. now rewrite concat_app, zlen_app. Qed.

Lemma db_step_refl d : 0 <= db_offset d < two64 -> db_step d d [] [].
Proof.
  intros H. constructor; cbn; rewrite ?app_nil_r; auto.
  rewrite zlen_nil, Z.add_0_r. destruct (db_fs d && db_raw d); [|reflexivity]. now rewrite u64_small.
Qed.

Lemma db_step_off d d' cs added : db_step d d' cs added -> 0 <= db_offset d' < two64.
Proof.
  intros H. rewrite (st_off _ _ _ _ H). destruct (db_fs d && db_raw d); [apply u64_range|apply (st_offr _ _ _ _ H)].
Qed.

Lemma db_step_trans d0 d1 d2 c1 c2 a1 a2 : db_step d0 d1 c1 a1 -> db_step d1 d2 c2 a2 ->
  db_step d0 d2 (c1 ++ c2) (a1 ++ a2).
Proof.
  intros [] []. constructor; try congruence.
  - rewrite st_pend0, st_pend1, map_app, app_assoc. reflexivity.
  - rewrite st_off1, st_fs0, st_raw0, st_off0. destruct (db_fs d0 && db_raw d0); [|reflexivity].
    rewrite u64_add_u, zlen_concat_app. f_equal. lia.
  - rewrite st_added1, st_added0, app_assoc. reflexivity.
Qed.

Lemma db_step_prepare d : 0 <= db_offset d < two64 -> db_step d (prepareNext d) [] [].
Proof.
  intros H. pose proof (pend_prepare d) as Hp. unfold prepareNext in *. destruct d as [spl nx er raw mx bu fs off w]; cbn in *.
  constructor; cbn; try rewrite Hp; destruct nx, er, spl as [|[] ?]; cbn; auto using app_nil_r;
  rewrite ?zlen_nil, ?Z.add_0_r, ?app_nil_r; try reflexivity;
  destruct (fs && raw); try reflexivity; now rewrite u64_small.
Qed.

(** ** Faults *)

Definition ok_event (e : event) : Prop := match e with EvData b => zlen b <= BlockSizeLimit | EvErr _ => False end.
(** Nothing in the input or the store can go wrong. *)
Definition faultless (d : db) : Prop :=
  Forall ok_event (pend d) /\ forall k, w_addok (db_w d) k = true.

Lemma faultless_step d d' cs a : db_step d d' cs a -> faultless d -> faultless d'.
Proof.
  intros [] [H1 H2]. split.
  - rewrite st_pend0 in H1. apply Forall_app in H1. tauto.
  - intros k. now rewrite st_addok0.
Qed.

(** The store only grows. *)
Definition wgrow (w w' : world) : Prop :=
  (exists a, w_added w' = w_added w ++ a) /\ w_has w' = w_has w /\ w_addok w' = w_addok w /\ w_getok w' = w_getok w.
Lemma wgrow_refl w : wgrow w w.
Proof. repeat split. exists []. now rewrite app_nil_r. Qed.
Lemma wgrow_trans a b c : wgrow a b -> wgrow b c -> wgrow a c.
Proof.
  intros ((x & Hx) & H1 & H2 & H3) ((y & Hy) & K1 & K2 & K3). repeat split; try congruence.
  exists (x ++ y). now rewrite Hy, Hx, app_assoc.
Qed.
Lemma db_step_wgrow d d' cs a : db_step d d' cs a -> wgrow (db_w d) (db_w d').
Proof. intros []. repeat split; eauto. Qed.

(** The store grows children first. *)
Definition wups (w w' : world) : Prop :=
  wgrow w w' /\ exists a, w_added w' = w_added w ++ a /\ children_first (fun _ => False) a.
Lemma cf_nil B : children_first B [].
Proof. intros [|? ?] x a2 E; discriminate. Qed.
Lemma cf_app (B : node -> Prop) a b : children_first B a -> children_first (fun m => B m \/ In m (map fst a)) b -> children_first B (a ++ b).
Proof.
  intros Ha Hb a1 x a2 E l Hl. destruct (app_eq_app _ _ _ _ E) as (q & [[-> Eq]|[-> Eq]]).
  - destruct q as [|y q].
    + cbn in Eq. destruct (Hb [] x a2 (eq_sym Eq) l Hl) as [[H|H]|[]]; [now left|]. right. now rewrite app_nil_r in H.
    + injection Eq as -> ->. exact (Ha _ _ _ eq_refl l Hl).
  - destruct (Hb _ _ _ Eq l Hl) as [[H|H]|H]; [now left| |]; right; rewrite map_app; apply in_or_app; auto.
Qed.
Lemma cf_mono (B B' : node -> Prop) a : (forall m, B m -> B' m) -> children_first B a -> children_first B' a.
Proof. intros H Ha a1 x a2 E l Hl. destruct (Ha _ _ _ E l Hl); auto. Qed.
Lemma wups_refl w : wups w w.
Proof. split; [apply wgrow_refl|]. exists []. split; [now rewrite app_nil_r|apply cf_nil]. Qed.
Lemma wups_trans a b c : wups a b -> wups b c -> wups a c.
Proof.
  intros (G1 & x & Ex & Hx) (G2 & y & Ey & Hy). split; [eapply wgrow_trans; eassumption|]. exists (x ++ y).
  split; [now rewrite Ey, Ex, app_assoc|]. apply cf_app; [exact Hx|]. eapply cf_mono; [|exact Hy]. now left.
Qed.
Lemma wups_same w w' : w_added w' = w_added w -> w_has w' = w_has w -> w_addok w' = w_addok w -> w_getok w' = w_getok w -> wups w w'.
Proof.
  intros H1 H2 H3 H4. split.
  - repeat split; auto. exists []. now rewrite app_nil_r.
  - exists []. split; [now rewrite app_nil_r|apply cf_nil].
Qed.
Lemma db_step_quiet d d' cs : db_step d d' cs [] -> wups (db_w d) (db_w d').
Proof. intros []. apply wups_same; auto. now rewrite app_nil_r in st_added0. Qed.

(** ** Next *)

Lemma Next_data d b r : 0 <= db_offset d < two64 -> pend d = EvData b :: r ->
  exists d', Next d = (Ok (Some b), d') /\ pend d' = r /\ db_raw d' = db_raw d /\ db_maxlinks d' = db_maxlinks d /\
    db_builder d' = db_builder d /\ db_fs d' = db_fs d /\ db_offset d' = db_offset d /\ db_w d' = db_w d.
Proof.
  intros Ho H. unfold Next, prepareNext, pend in *. destruct d as [spl nx er raw mx bu fs off w]; cbn in *.
  destruct er as [e|]; [discriminate|]. destruct nx as [x|].
  - injection H as -> ->. cbn. eexists. split; [reflexivity|]. cbn. repeat split.
  - destruct spl as [|[x|e] q]; cbn in *; try discriminate.
    injection H as -> ->. eexists. split; [reflexivity|]. cbn. repeat split.
Qed.

Lemma Next_err d e r : pend d = EvErr e :: r -> exists d', Next d = (Err e, d') /\ db_w d' = db_w d.
Proof.
  intros H. unfold Next, prepareNext, pend in *. destruct d as [spl nx er raw mx bu fs off w]; cbn in *.
  destruct er as [e'|]; cbn.
  - injection H as <- <-. destruct nx; cbn; eexists; split; reflexivity.
  - destruct nx as [x|]; [discriminate|]. destruct spl as [|[x|e'] q]; cbn in *; try discriminate.
    injection H as <- <-. eexists. split; reflexivity.
Qed.

(** ** Leaves *)

Definition leaf_ok (t : Z) : Prop := t = TFile \/ t = TRaw.

Lemma FilesizeNew t : d_filesize (NewFSNode t) = Some 0.
Proof. reflexivity. Qed.

Lemma mod64_u64 z : mod64 z = u64 z.
Proof. reflexivity. Qed.

Lemma SetData_New t b : d_type (SetData b (NewFSNode t)) = Some t /\
  getData (SetData b (NewFSNode t)) = obytes b /\ d_blocksizes (SetData b (NewFSNode t)) = [] /\
  d_filesize (SetData b (NewFSNode t)) = Some (u64 (zlen (obytes b))) /\
  d_hashtype (SetData b (NewFSNode t)) = None /\ d_fanout (SetData b (NewFSNode t)) = None /\
  d_unrec (SetData b (NewFSNode t)) = [] /\ d_data (SetData b (NewFSNode t)) = b.
Proof.
  unfold SetData. rewrite UpdateFilesize_eq. repeat (split; [try reflexivity|]); try reflexivity.
  cbn [d_filesize set_data set_filesize]. f_equal.
  change (getData (NewFSNode t)) with (@nil byte). change (getFilesize (NewFSNode t)) with 0.
  rewrite u64_add_r. change (zlen (@nil byte)) with 0. f_equal. lia.
Qed.

Lemma commit_roundtrip f : good_data f -> d_type f <> None ->
  exists b, GetBytes f = Ok b /\ FSNodeFromBytes b = Ok f.
Proof.
  intros Hg Ht. destruct (must_marshal_ok f Ht) as (b & _ & Hb). exists b. split; [exact Hb|].
  eapply unmarshal_marshal; eassumption.
Qed.

Lemma good_leaf t b : leaf_ok t -> zlen (obytes b) < two64 -> good_data (SetData b (NewFSNode t)).
Proof.
  intros Ht Hb. destruct (SetData_New t b) as (H1 & H2 & H3 & H4 & H5 & H6 & H7 & H8).
  apply good_data_nounrec; [|assumption]. unfold fields_ok. rewrite H1, H3, H4, H5, H6, H8.
  destruct Ht as [-> | ->]; unfold TFile, TRaw; repeat split; try lia; try constructor; try apply u64_range;
  destruct b; cbn in *; auto.
Qed.

Lemma leaf_dag d t data : leaf_ok t -> zlen (obytes data) <= BlockSizeLimit ->
  exists n, NewLeafNode data t d = Ok n /\ file_dag n [obytes data] /\ node_links n = [] /\
    (db_raw d = true -> n = NRaw (raw_prefix (db_builder d)) (obytes data)) /\
    (db_raw d = false -> exists b, n = NProto (proto_prefix (db_builder d)) b [] /\
       exists f, FSNodeFromBytes b = Ok f /\ getType f = t).
Proof.
  intros Ht Hl. unfold NewLeafNode.
  destruct (BlockSizeLimit <? zlen (obytes data)) eqn:E; [unfold BlockSizeLimit in *; lia|].
  destruct (db_raw d) eqn:Er.
  - eexists. split; [reflexivity|]. repeat split; try constructor; try congruence.
  - destruct (SetData_New t data) as (H1 & H2 & H3 & H4 & H5 & H6 & H7 & H8).
    destruct (commit_roundtrip (SetData data (NewFSNode t))) as (b & Hb & Hd).
    { apply good_leaf; [assumption|]. unfold BlockSizeLimit, two64 in *; lia. }
    { rewrite H1. discriminate. }
    unfold Commit, SetFileData, NewFSNodeOverDag. cbn [f_file f_prefix f_links]. rewrite Hb. cbn [rbind].
    eexists. split; [reflexivity|]. unfold GetDagNode. cbn [f_prefix f_bytes f_links].
    assert (Hty : getType (SetData data (NewFSNode t)) = t) by (unfold getType; now rewrite H1).
    repeat split; try congruence.
    + rewrite <- H2. econstructor; [exact Hd| |assumption|].
      * rewrite Hty. exact Ht.
      * rewrite H2. exact H4.
    + intros _. exists b. split; [reflexivity|]. eauto.
Qed.

(** ** Trees *)

Definition isSomeb {A} (o : option A) : bool := match o with Some _ => true | None => false end.
(** Filestore entries of a log. *)
Definition fs_entries (l : list xnode) : list (bytes * Z) :=
  flat_map (fun x => match snd x with Some o => [(node_bytes (fst x), o)] | None => [] end) l.
Lemma fs_entries_app a b : fs_entries (a ++ b) = fs_entries a ++ fs_entries b.
Proof. apply flat_map_app. Qed.

Definition entries (d : db) (cs : list bytes) : list (bytes * Z) :=
  if db_fs d && db_raw d then positions (db_offset d) cs else [].

Lemma positions_app o a b : positions o (a ++ b) = positions o a ++ positions (o + zlen (concat a)) b.
Proof.
  revert o. induction a as [|x a IH]; intros o; cbn [app positions concat].
  - now rewrite zlen_nil, Z.add_0_r.
  - f_equal. rewrite IH. do 2 f_equal. rewrite zlen_app. lia.
Qed.
Lemma positions_mod o o' cs : mod64 o = mod64 o' -> positions o cs = positions o' cs.
Proof.
  revert o o'. induction cs as [|c cs IH]; intros o o' H; cbn [positions]; [reflexivity|].
  f_equal; [now rewrite H|]. apply IH. unfold mod64 in *. lia.
Qed.

Lemma entries_app d d1 a b x : db_step d d1 a x -> entries d (a ++ b) = entries d a ++ entries d1 b.
Proof.
  intros H. unfold entries. rewrite (st_fs _ _ _ _ H), (st_raw _ _ _ _ H).
  destruct (db_fs d && db_raw d) eqn:E; [|reflexivity].
  rewrite positions_app. f_equal. apply positions_mod. rewrite (st_off _ _ _ _ H), E.
  unfold mod64, u64, two64. rewrite Z.mod_mod by lia. reflexivity.
Qed.

(** The log [a] consists of the blocks below the links [ls]. *)
Definition links_in (ls : list link) (a : list xnode) : Prop := flat_map (fun l => blocks (lto l)) ls = map fst a.
(** Of the blocks of [n] below the root; of all blocks of [n]. *)
Definition below_in (n : node) (a : list xnode) : Prop := links_in (node_links n) a.
Definition all_in (n : node) (a : list xnode) : Prop := blocks n = map fst a.

Lemma blocks_eq n : blocks n = flat_map (fun l => blocks (lto l)) (node_links n) ++ [n].
Proof. destruct n; reflexivity. Qed.
Lemma below_all n a o : below_in n a -> all_in n (a ++ [(n, o)]).
Proof. unfold below_in, links_in, all_in. intros H. rewrite blocks_eq, H, map_app. reflexivity. Qed.
Lemma links_in_app ls a ls' a' : links_in ls a -> links_in ls' a' -> links_in (ls ++ ls') (a ++ a').
Proof. unfold links_in. intros H H'. now rewrite flat_map_app, map_app, H, H'. Qed.

Lemma blocks_reach n : forall m, In m (blocks n) <-> reach n m.
Proof.
  induction n as [p d|p d ls IH] using node_ind'; intros m; rewrite blocks_eq; cbn [node_links flat_map app].
  - split; [intros [<-|[]]; constructor|]. inversion 1; subst; [now left|]. cbn in *. contradiction.
  - rewrite Forall_forall in IH. split.
    + intros H. apply in_app_or in H as [H|[<-|[]]]; [|constructor]. apply in_flat_map in H as (l & Hl & H).
      econstructor; [exact Hl|]. now apply IH.
    + intros H. apply in_or_app. inversion H; subst; [right; now left|]. left. apply in_flat_map. cbn in *. eexists. split; [eassumption|]. now apply IH.
Qed.
Lemma all_in_reach n a m : all_in n a -> reach n m -> In m (map fst a).
Proof. intros <-. apply blocks_reach. Qed.
Lemma links_in_reach ls a l m : links_in ls a -> In l ls -> reach (lto l) m -> In m (map fst a).
Proof. intros <- Hl Hr. apply in_flat_map. exists l. split; [exact Hl|]. now apply blocks_reach. Qed.

(** A log of whole DAGs has children first. *)
Lemma cf_map B a a' : map fst a = map fst a' -> children_first B a -> children_first B a'.
Proof.
  intros E H a1 x a2 -> l Hl. rewrite map_app in E. cbn [map] in E.
  apply map_eq_app in E as (b1 & b2 & -> & E1 & E2). destruct b2 as [|y b2]; [discriminate|]. injection E2 as E2 _.
  rewrite <- E1. apply (H b1 y b2 eq_refl). now rewrite E2.
Qed.
Lemma cf_snoc B a x : children_first B a -> (forall l, In l (node_links (fst x)) -> B (lto l) \/ In (lto l) (map fst a)) -> children_first B (a ++ [x]).
Proof.
  intros Ha Hx. apply cf_app; [exact Ha|]. intros a1 y a2 E l Hl. destruct a1 as [|z a1].
  - injection E as <- <-. left. auto.
  - injection E as _ E. destruct a1; discriminate.
Qed.
Definition plain (ns : list node) : list xnode := map (fun n => (n, None)) ns.
Lemma map_plain ns : map fst (plain ns) = ns.
Proof. unfold plain. rewrite map_map. apply map_id. Qed.
Lemma plain_app a b : plain (a ++ b) = plain a ++ plain b.
Proof. apply map_app. Qed.
Lemma blocks_first n : children_first (fun _ => False) (plain (blocks n)).
Proof.
  induction n as [p d|p d ls IH] using node_ind'; rewrite blocks_eq, plain_app.
  - apply cf_snoc; [apply cf_nil|]. intros l [].
  - apply cf_snoc.
    + cbn [node_links]. induction IH as [|l ls Hl _ IHl]; [apply cf_nil|]. cbn [flat_map]. rewrite plain_app. apply cf_app; [exact Hl|].
      eapply cf_mono; [|exact IHl]. now left.
    + cbn [fst node_links]. intros l Hl. right. rewrite map_plain. apply in_flat_map. exists l. split; [exact Hl|]. apply blocks_reach. constructor.
Qed.
Lemma links_in_first ls a : links_in ls a -> children_first (fun _ => False) a.
Proof.
  intros H. apply (cf_map _ (plain (map fst a))); [apply map_plain|]. rewrite <- H. clear H. induction ls as [|l ls IH]; [apply cf_nil|].
  cbn [flat_map]. rewrite plain_app. apply cf_app; [apply blocks_first|]. eapply cf_mono; [|exact IH]. now left.
Qed.

Lemma file_dag_unnamed n cs : file_dag n cs -> Forall unnamed (node_links n).
Proof. destruct 1; cbn; try constructor; assumption. Qed.
Lemma file_dag_seal n cs : file_dag n cs -> seal n = n.
Proof. intros H. eapply seal_unnamed, file_dag_unnamed, H. Qed.

(** ** Cumulative sizes *)

Lemma sumZ_app a b : sumZ (a ++ b) = sumZ a + sumZ b.
Proof. unfold sumZ. rewrite fold_right_app. induction a as [|x a IH]; cbn in *; [lia|]. rewrite IH. lia. Qed.

Definition links_exact (ls : list link) : Prop := Forall (fun l => lsize l = mod64 (cumulative (lto l)) /\ tsizes_exact (lto l)) ls.

Lemma node_size_exact n : links_exact (node_links n) -> node_size n = mod64 (cumulative n).
Proof.
  intros H. unfold node_size. destruct n as [p d|p d ls]; cbn [node_links cumulative] in *.
  - reflexivity.
  - unfold mod64, u64, two64. set (B := block_len _). clearbody B.
    assert (E : sumZ (map lsize ls) mod 18446744073709551616 =
      fold_right Z.add 0 (map (fun l => cumulative (lto l)) ls) mod 18446744073709551616).
    { induction H as [|l ls [H _] HF IH]; [reflexivity|]. cbn [map sumZ fold_right].
      rewrite H. unfold mod64. unfold sumZ in *. lia. }
    rewrite Z.add_mod, E, <- Z.add_mod by lia. reflexivity.
Qed.

Lemma tsizes_node n : links_exact (node_links n) -> tsizes_exact n.
Proof.
  intros H m l Hr Hl. unfold links_exact in H. rewrite Forall_forall in H. destruct Hr as [n|n l0 m Hl0 Hr].
  - now apply H.
  - apply (proj2 (H l0 Hl0)) with m; assumption.
Qed.

Lemma tsizes_links n : tsizes_exact n -> links_exact (node_links n).
Proof.
  intros H. apply Forall_forall. intros l Hl. split.
  - apply (H n l); [constructor|assumption].
  - intros m l' Hr Hl'. apply (H m l'); [|assumption]. econstructor; eassumption.
Qed.

(** ** What making a (sub)tree means *)

Record made (d d' : db) (x : xnode) (sz : Z) (cs : list bytes) (added : list xnode) : Prop := {
  md_step : db_step d d' cs added;
  md_dag : file_dag (fst x) cs;
  md_size : sz = mod64 (zlen (concat cs));
  md_below : below_in (fst x) added;
  md_entries : fs_entries (added ++ [x]) = entries d cs;
  md_tsize : tsizes_exact (fst x);
  md_limit : Forall (fun c => zlen c <= BlockSizeLimit) cs;
  md_some : cs <> []
}.

(** Outcome of a tree-making step from a state with input left; [P] is a further
    property of the tree made and the state reached. *)
Definition mk_post (P : node -> list bytes -> db -> Prop) (d : db) (r : res (xnode * Z) * db) : Prop :=
  match r with
  | (Ok (x, sz), d') => exists cs added, made d d' x sz cs added /\ P (fst x) cs d'
  | (Err _, d') => ~ faultless d /\ wups (db_w d) (db_w d')
  | (Panic, _) => False
  | (Fuel, _) => False
  end.

(** The leaf the configuration asks for. *)
Definition leaf_of (raw : bool) (builder : option prefix) (t : Z) (n : node) : Prop :=
  if raw then exists b, n = NRaw (raw_prefix builder) b
  else exists b, n = NProto (proto_prefix builder) b [] /\ exists f, FSNodeFromBytes b = Ok f /\ getType f = t.

Lemma leaf_of_links raw bu t n : leaf_of raw bu t n -> node_links n = [].
Proof. unfold leaf_of. destruct raw; [intros (b & ->)|intros (b & -> & _)]; reflexivity. Qed.

Lemma leaf_made t d : leaf_ok t -> 0 <= db_offset d < two64 -> pend d <> [] ->
  mk_post (fun n cs _ => leaf_of (db_raw d) (db_builder d) t n /\ length cs = 1%nat) d (NewLeafDataNode t d).
Proof.
  intros Ht Ho Hp. set (Pl := fun (n : node) (cs : list bytes) (_ : db) => _). unfold NewLeafDataNode, bind.
  destruct (pend d) as [|[b|e] r] eqn:E; [congruence| |].
  - destruct (Next_data d b r Ho E) as (d1 & -> & P1 & R1 & M1 & B1 & F1 & O1 & W1). cbn [obytes].
    destruct (Z_le_gt_dec (zlen b) BlockSizeLimit) as [Hb|Hb].
    + destruct (leaf_dag d1 t (Some b) Ht Hb) as (n & -> & Hd & Hl & Hraw & Hpro).
      cbn [obytes] in *. unfold ProcessFileStore, ret.
      assert (Hcommon : forall d2 o, pend d2 = r -> db_raw d2 = db_raw d -> db_maxlinks d2 = db_maxlinks d ->
         db_builder d2 = db_builder d -> db_fs d2 = db_fs d -> db_w d2 = db_w d ->
         db_offset d2 = (if db_fs d && db_raw d then u64 (db_offset d + zlen b) else db_offset d) ->
         fs_entries [(n, o)] = entries d [b] ->
         exists cs added, made d d2 (n, o) (zlen b) cs added /\
           Pl (fst (n, o)) cs d2).
      { intros d2 o Q1 Q2 Q3 Q4 Q5 Q6 Q7 Q8. exists [b], []. split; [|unfold Pl; split; [|reflexivity]].
        2:{ unfold leaf_of. rewrite <- R1, <- B1. destruct (db_raw d1); eauto. }
        constructor; cbn [fst concat app].
        - constructor; rewrite ?Q6; auto; try (rewrite E, Q1; reflexivity); cbn; rewrite ?app_nil_r; auto.
        - exact Hd.
        - rewrite app_nil_r. unfold mod64. rewrite Z.mod_small; [reflexivity|]. pose proof (zlen_nonneg b). unfold BlockSizeLimit in Hb. lia.
        - unfold below_in. rewrite Hl. reflexivity.
        - exact Q8.
        - apply tsizes_node. rewrite Hl. constructor.
        - repeat constructor. assumption.
        - discriminate. }
      clearbody Pl. destruct (db_fs d1) eqn:Fs; destruct (db_raw d1) eqn:Rr; rewrite <- ?F1, <- ?R1 in Hcommon; cbn [andb] in Hcommon.
      * rewrite (Hraw eq_refl) in Hcommon |- *. cbn [mk_post]. apply Hcommon; [exact P1| | | | | | |]; cbn [db_set_offset db_raw db_maxlinks db_builder db_fs db_w db_offset]; try congruence.
        unfold entries. rewrite <- F1, <- R1. cbn. rewrite O1. unfold mod64.
        rewrite Z.mod_small by (unfold two64 in Ho; lia). reflexivity.
      * destruct (Hpro eq_refl) as (bb & -> & _). cbn [mk_post]. apply Hcommon; [exact P1| | | | | | |]; cbn [db_set_offset db_raw db_maxlinks db_builder db_fs db_w db_offset]; try congruence.
        unfold entries. rewrite <- F1, <- R1. reflexivity.
      * cbn [mk_post]. apply Hcommon; [exact P1| | | | | | |]; cbn [db_set_offset db_raw db_maxlinks db_builder db_fs db_w db_offset]; try congruence.
        unfold entries. rewrite <- F1, <- R1. reflexivity.
      * cbn [mk_post]. apply Hcommon; [exact P1| | | | | | |]; cbn [db_set_offset db_raw db_maxlinks db_builder db_fs db_w db_offset]; try congruence.
        unfold entries. rewrite <- F1, <- R1. reflexivity.
    + unfold NewLeafNode. cbn [obytes]. destruct (BlockSizeLimit <? zlen b) eqn:Eb; [|lia].
      cbn [mk_post]. split; [|rewrite W1; apply wups_refl].
      intros [HF _]. rewrite E in HF. inversion HF as [|? ? Hx _]; subst. cbn in Hx. lia.
  - destruct (Next_err d e r E) as (d1 & -> & W1). cbn [mk_post]. rewrite W1.
    split; [|apply wups_refl]. intros [HF _]. rewrite E in HF. inversion HF as [|? ? Hx _]; subst. destruct Hx.
Qed.

(** ** Nodes in progress *)

(** Children with contents [css] have been added to the node [n0], giving [n]. *)
Record grown (n0 : fsn) (d0 : db) (n : fsn) (d : db) (css : list (list bytes)) (added : list xnode) : Prop := {
  gr_prefix : f_prefix n = f_prefix n0;
  gr_links : exists ls, f_links n = f_links n0 ++ ls /\ Forall unnamed ls /\
      Forall2 file_dag (map lto ls) css /\ links_exact ls /\ links_in ls added;
  gr_blocks : d_blocksizes (f_file n) = d_blocksizes (f_file n0) ++ map (fun cs => mod64 (zlen (concat cs))) css;
  gr_size : d_filesize (f_file n) = Some (u64 (getFilesize (f_file n0) + zlen (concat (concat css))));
  gr_type : d_type (f_file n) = d_type (f_file n0);
  gr_data : d_data (f_file n) = d_data (f_file n0);
  gr_ht : d_hashtype (f_file n) = d_hashtype (f_file n0);
  gr_fo : d_fanout (f_file n) = d_fanout (f_file n0);
  gr_unrec : d_unrec (f_file n) = d_unrec (f_file n0);
  gr_step : db_step d0 d (concat css) added;
  gr_entries : fs_entries added = entries d0 (concat css);
  gr_limit : Forall (fun c => zlen c <= BlockSizeLimit) (concat css);
  gr_some : Forall (fun cs => cs <> []) css
}.

Definition file_ok (f : FSNode) : Prop := exists s, d_filesize f = Some s /\ in_u64 s.

Lemma grown_refl n d : file_ok (f_file n) -> 0 <= db_offset d < two64 -> grown n d n d [] [].
Proof.
  intros (s & Hs & Hr) Ho. constructor; cbn; rewrite ?app_nil_r; auto.
  - exists []. rewrite app_nil_r. repeat split; constructor.
  - rewrite zlen_nil, Z.add_0_r. unfold getFilesize. rewrite Hs, u64_small; [reflexivity|exact Hr].
  - now apply db_step_refl.
  - unfold entries. now destruct (db_fs d && db_raw d).
Qed.

Lemma grown_file_ok n0 d0 n d css a : grown n0 d0 n d css a -> file_ok (f_file n).
Proof. intros H. eexists. split; [apply (gr_size _ _ _ _ _ _ H)|apply u64_range]. Qed.

Lemma Forall2_app' {A B} (R : A -> B -> Prop) a b c d : Forall2 R a b -> Forall2 R c d -> Forall2 R (a ++ c) (b ++ d).
Proof. apply Forall2_app. Qed.

Lemma grown_trans n0 d0 n1 d1 n2 d2 c1 c2 a1 a2 : grown n0 d0 n1 d1 c1 a1 -> grown n1 d1 n2 d2 c2 a2 ->
  grown n0 d0 n2 d2 (c1 ++ c2) (a1 ++ a2).
Proof.
  intros H1 H2. constructor.
  - rewrite (gr_prefix _ _ _ _ _ _ H2). apply H1.
  - destruct (gr_links _ _ _ _ _ _ H1) as (l1 & E1 & U1 & F1 & X1 & A1).
    destruct (gr_links _ _ _ _ _ _ H2) as (l2 & E2 & U2 & F2 & X2 & A2).
    exists (l1 ++ l2). rewrite E2, E1, <- app_assoc, map_app. split; [reflexivity|].
    split; [apply Forall_app; auto|]. split; [now apply Forall2_app|]. split; [apply Forall_app; auto|].
    now apply links_in_app.
  - rewrite (gr_blocks _ _ _ _ _ _ H2), (gr_blocks _ _ _ _ _ _ H1), map_app, app_assoc. reflexivity.
  - rewrite (gr_size _ _ _ _ _ _ H2). f_equal. unfold getFilesize at 1. rewrite (gr_size _ _ _ _ _ _ H1).
    rewrite u64_add_u. f_equal. unfold bytes in *. rewrite !concat_app, zlen_app. lia.
  - rewrite (gr_type _ _ _ _ _ _ H2). apply H1.
  - rewrite (gr_data _ _ _ _ _ _ H2). apply H1.
  - rewrite (gr_ht _ _ _ _ _ _ H2). apply H1.
  - rewrite (gr_fo _ _ _ _ _ _ H2). apply H1.
  - rewrite (gr_unrec _ _ _ _ _ _ H2). apply H1.
  - rewrite concat_app. eapply db_step_trans; [apply H1|apply H2].
  - rewrite fs_entries_app, concat_app. rewrite (gr_entries _ _ _ _ _ _ H1), (gr_entries _ _ _ _ _ _ H2).
    symmetry. eapply entries_app. apply H1.
  - rewrite concat_app. apply Forall_app. split; [apply H1|apply H2].
  - apply Forall_app. split; [apply H1|apply H2].
Qed.

Lemma grown_wups n0 d0 n d css a : grown n0 d0 n d css a -> wups (db_w d0) (db_w d).
Proof.
  intros G. split; [eapply db_step_wgrow, G|]. exists a. split; [apply G|].
  destruct (gr_links _ _ _ _ _ _ G) as (ls & _ & _ & _ & _ & A). eapply links_in_first, A.
Qed.
Lemma made_wups d d' x sz cs a : made d d' x sz cs a -> wups (db_w d) (db_w d').
Proof.
  intros M. split; [eapply db_step_wgrow, M|]. exists a. split; [apply M|].
  eapply links_in_first, (md_below _ _ _ _ _ _ M).
Qed.

(** Consuming nothing. *)
Lemma grown_quiet n0 d0 n d d' css a : grown n0 d0 n d css a -> db_step d d' [] [] -> grown n0 d0 n d' css a.
Proof.
  intros H1 H2. pose proof (db_step_trans _ _ _ _ _ _ _ (gr_step _ _ _ _ _ _ H1) H2) as Hs.
  rewrite !app_nil_r in Hs. destruct H1. constructor; auto.
Qed.
Lemma entries_cfg d d' cs : db_fs d' = db_fs d -> db_raw d' = db_raw d -> db_offset d' = db_offset d -> entries d' cs = entries d cs.
Proof. intros H1 H2 H3. unfold entries. now rewrite H1, H2, H3. Qed.

Lemma step_nil_off d d' a : db_step d d' [] a -> db_offset d' = db_offset d.
Proof.
  intros H. rewrite (st_off _ _ _ _ H). cbn [concat]. rewrite zlen_nil, Z.add_0_r.
  destruct (db_fs d && db_raw d); [|reflexivity]. apply u64_small, (st_offr _ _ _ _ H).
Qed.

Lemma made_quiet d d' d'' x sz cs a : db_step d d' [] [] -> made d' d'' x sz cs a -> made d d'' x sz cs a.
Proof.
  intros H1 H2. pose proof (db_step_trans _ _ _ _ _ _ _ H1 (md_step _ _ _ _ _ _ H2)) as Hs. cbn in Hs.
  destruct H2. constructor; auto. rewrite md_entries0. apply entries_cfg.
  - apply H1.
  - apply H1.
  - eapply step_nil_off, H1.
Qed.

(** Node after recording a child. *)
Definition with_child (n : fsn) (x : node) (sz : Z) : fsn :=
  mkFsn (f_prefix n) (f_bytes n) (f_links n ++ [make_link [] x]) (AddBlockSize sz (f_file n)).

Lemma AddBlockSize_eq s f : AddBlockSize s f =
  set_blocksizes (d_blocksizes f ++ [s]) (set_filesize (Some (u64 (getFilesize f + s))) f).
Proof. unfold AddBlockSize. rewrite UpdateFilesize_eq, u64_add_r. reflexivity. Qed.

Lemma AddChild_spec n d0 d x sz cs a : 0 <= db_offset d0 < two64 -> made d0 d x sz cs a ->
  (exists d', AddChild x sz (n, d) = (Ok tt, (with_child n (fst x) sz, d')) /\
     grown n d0 (with_child n (fst x) sz) d' [cs] (a ++ [x]) /\ pend d' = pend d) \/
  (exists d', AddChild x sz (n, d) = (Err EAdd, (with_child n (fst x) sz, d')) /\
     ~ faultless d0 /\ wups (db_w d0) (db_w d')).
Proof.
  intros Ho H. unfold AddChild, Add, dserv_add. destruct (w_addok (db_w d) (w_calls (db_w d))) eqn:E.
  - left. eexists. split; [reflexivity|]. split; [|reflexivity].
    pose proof (file_dag_seal _ _ (md_dag _ _ _ _ _ _ H)) as Hseal.
    pose proof (md_step _ _ _ _ _ _ H) as [].
    unfold with_child, make_link. rewrite Hseal. rewrite AddBlockSize_eq.
    destruct x as [x o]. cbn [fst snd] in *.
    constructor; cbn [f_prefix f_links f_file d_blocksizes d_filesize set_blocksizes set_filesize d_type d_data d_hashtype d_fanout d_unrec map concat]; try reflexivity.
    + eexists. split; [reflexivity|]. split; [repeat constructor|]. cbn [map lto lsize].
      split; [constructor; [apply H|constructor]|]. split.
      * constructor; [|constructor]. cbn [lsize lto]. split; [|apply H].
        apply node_size_exact, tsizes_links, H.
      * unfold links_in. cbn [flat_map lto]. rewrite app_nil_r. apply below_all. apply (md_below _ _ _ _ _ _ H).
    + rewrite (md_size _ _ _ _ _ _ H). reflexivity.
    + rewrite (md_size _ _ _ _ _ _ H). rewrite app_nil_r. f_equal. unfold mod64, u64, two64. lia.
    + rewrite app_nil_r. constructor; cbn [db_set_w db_w db_raw db_maxlinks db_builder db_fs db_offset w_added w_has w_addok w_getok]; auto.
      rewrite st_added0, app_assoc. reflexivity.
    + rewrite app_nil_r. apply H.
    + rewrite app_nil_r. apply H.
    + constructor; [|constructor]. apply H.
  - right. eexists. split; [reflexivity|]. pose proof (md_step _ _ _ _ _ _ H) as Hs. split.
    + intros [_ Hf]. rewrite (st_addok _ _ _ _ Hs) in E. congruence.
    + eapply wups_trans; [eapply made_wups, H|]. now apply wups_same.
Qed.

(** Outcome of working on a node. *)
Definition gpost (n0 : fsn) (d0 : db) (Q : fsn -> db -> list (list bytes) -> Prop) (r : res unit * (fsn * db)) : Prop :=
  match r with
  | (Ok _, (n, d)) => exists css added, grown n0 d0 n d css added /\ Q n d css
  | (Err _, (_, d)) => ~ faultless d0 /\ wups (db_w d0) (db_w d)
  | (Panic, _) => False
  | (Fuel, _) => False
  end.

Lemma gpost_weaken n0 d0 (Q Q' : fsn -> db -> list (list bytes) -> Prop) r :
  gpost n0 d0 Q r -> (forall n d css a, grown n0 d0 n d css a -> Q n d css -> Q' n d css) -> gpost n0 d0 Q' r.
Proof.
  destruct r as [[u|e| |] [n d]]; cbn; auto. intros (css & ad & H & HQ) K. eauto.
Qed.

Lemma gpost_bind {A} n0 d0 Q Q' (r : res A * (fsn * db)) (k : A -> M (fsn * db) unit) : True ->
  (match r with
   | (Ok a, (n, d)) => exists css added, grown n0 d0 n d css added /\ Q a n d css
   | (Err _, (_, d)) => ~ faultless d0 /\ wups (db_w d0) (db_w d)
   | (Panic, _) => False
   | (Fuel, _) => False
   end) ->
  (forall a n d css added, grown n0 d0 n d css added -> Q a n d css ->
      gpost n d (fun n' d' c' => Q' n' d' (css ++ c')) (k a (n, d))) ->
  gpost n0 d0 Q' (match r with
   | (Ok a, s) => k a s | (Err e, s) => (Err e, s) | (Panic, s) => (Panic, s) | (Fuel, s) => (Fuel, s) end).
Proof.
  intros _ H K. destruct r as [[a|e| |] [n d]]; cbn; auto.
  destruct H as (css & added & H & HQ). specialize (K a n d css added H HQ).
  destruct (k a (n, d)) as [[[]|e| |] [n' d']]; cbn in *; auto.
  - destruct K as (c2 & a2 & H2 & Q2). exists (css ++ c2), (added ++ a2). split; [|assumption].
    eapply grown_trans; eassumption.
  - destruct K as [K1 K2]. split.
    + intros F. apply K1. eapply faultless_step; [apply H|exact F].
    + eapply wups_trans; [eapply grown_wups, H|assumption].
Qed.

(** Sequencing after a first phase. *)
Lemma gpost_seq n0 d0 Q Q' m (k : M (fsn * db) unit) :
  gpost n0 d0 Q (m (n0, d0)) ->
  (forall n d css added, grown n0 d0 n d css added -> Q n d css ->
      gpost n d (fun n' d' c' => Q' n' d' (css ++ c')) (k (n, d))) ->
  gpost n0 d0 Q' (bind m (fun _ => k) (n0, d0)).
Proof.
  intros H K. unfold bind. eapply (gpost_bind n0 d0 (fun _ => Q) Q' (m (n0, d0)) (fun _ => k)); auto.
Qed.

Lemma commit_spec n d (Q : fsn -> db -> list (list bytes) -> Prop) : file_ok (f_file n) -> 0 <= db_offset d < two64 ->
  d_type (f_file n) <> None ->
  (forall b, GetBytes (f_file n) = Ok b -> Q (mkFsn (f_prefix n) b (f_links n) (f_file n)) d []) ->
  gpost n d Q (commit (n, d)).
Proof.
  intros Hf Ho Ht HQ. unfold commit, Commit. cbn [fst snd].
  destruct (must_marshal_ok (f_file n) Ht) as (b & _ & Hb). unfold GetBytes. rewrite Hb. cbn.
  exists [], []. split; [|apply HQ, Hb].
  pose proof (grown_refl n d Hf Ho) as G. destruct G. constructor; auto.
Qed.

(** The configuration does not change. *)
Definition cfg (d : db) := (db_raw d, db_maxlinks d, db_builder d, db_fs d).
Lemma cfg_step d d' cs a : db_step d d' cs a -> cfg d' = cfg d.
Proof. intros []. unfold cfg. congruence. Qed.

Definition mk_ok (c : bool * Z * option prefix * bool) (P : node -> list bytes -> db -> Prop) (mk : M db (xnode * Z)) (L : nat) : Prop :=
  forall d, cfg d = c -> 0 <= db_offset d < two64 -> pend d <> [] -> (length (pend d) <= L)%nat -> mk_post P d (mk d).

Lemma mk_ok_mono c P mk L L' : mk_ok c P mk L -> (L' <= L)%nat -> mk_ok c P mk L'.
Proof. intros H HL d H1 H2 H3 H4. apply H; auto. lia. Qed.

Lemma made_shorter d d' x sz cs a : made d d' x sz cs a -> (length (pend d') < length (pend d))%nat.
Proof.
  intros H. rewrite (st_pend _ _ _ _ (md_step _ _ _ _ _ _ H)), app_length, map_length.
  pose proof (md_some _ _ _ _ _ _ H). destruct cs; [congruence|]. cbn. lia.
Qed.

Lemma grown_shorter n0 d0 n d css a : grown n0 d0 n d css a -> (length (pend d) + length css <= length (pend d0))%nat.
Proof.
  intros H. rewrite (st_pend _ _ _ _ (gr_step _ _ _ _ _ _ H)), app_length, map_length.
  pose proof (gr_some _ _ _ _ _ _ H) as HF. clear H. enough (length css <= length (concat css))%nat by lia.
  induction HF as [|x l Hx HF IH]; [cbn; lia|]. cbn [concat length]. rewrite app_length. destruct x; [congruence|]. cbn. lia.
Qed.

(** One child: make it and add it. *)
Lemma one_child c P mk L n d : mk_ok c P mk L -> cfg d = c -> 0 <= db_offset d < two64 -> pend d <> [] ->
  (length (pend d) <= L)%nat ->
  gpost n d (fun n' d' css => exists x sz cs d1, css = [cs] /\ n' = with_child n x sz /\ P x cs d1 /\ pend d' = pend d1)
    ((do c <- on_db mk ;; AddChild (fst c) (snd c)) (n, d)).
Proof.
  intros Hmk Hc Ho Hp HL. specialize (Hmk d Hc Ho Hp HL). unfold bind, on_db. cbn [fst snd].
  destruct (mk d) as [[[x sz]|e| |] d']; cbn [mk_post] in Hmk; cbn [fst snd]; auto.
  destruct Hmk as (cs & a & Hm & HP).
  destruct (AddChild_spec n d d' x sz cs a Ho Hm) as [(d2 & -> & G & E)|(d2 & -> & G)]; cbn [gpost]; auto.
  exists [cs], (a ++ [x]). split; [exact G|]. exists (fst x), sz, cs, d'. auto.
Qed.

Lemma pend_done d : pend d <> [] -> match pend d with [] => true | _ => false end = false.
Proof. destruct (pend d); congruence. Qed.

Lemma fNum_child n x sz : fNumChildren (with_child n x sz) = fNumChildren n + 1.
Proof.
  unfold fNumChildren, NumChildren, with_child. rewrite AddBlockSize_eq. cbn. rewrite zlen_app, zlen_cons, zlen_nil. lia.
Qed.

(** The filling loop: [I] is maintained. *)
Lemma fill_loop_rule c (P : node -> list bytes -> db -> Prop) mk (I : fsn -> list (list bytes) -> db -> Prop) :
  (forall n css d x sz cs d1 d2, I n css d -> fNumChildren n < db_maxlinks d -> pend d <> [] ->
     P x cs d1 -> pend d2 = pend d1 -> cfg d2 = cfg d -> I (with_child n x sz) (css ++ [cs]) d2) ->
  (forall n css d d', I n css d -> pend d' = pend d -> cfg d' = cfg d -> I n css d') ->
  forall fuel n d css0, (room (n, d) <= fuel)%nat -> mk_ok c P mk (length (pend d)) -> cfg d = c -> file_ok (f_file n) ->
  0 <= db_offset d < two64 -> I n css0 d ->
  gpost n d (fun n' d' css => I n' (css0 ++ css) d' /\ (db_maxlinks d' <= fNumChildren n' \/ pend d' = []))
    (fill_loop mk fuel (n, d)).
Proof.
  intros HI HIq. induction fuel as [|fuel IH]; intros n d css0 Hr Hmk Hc Hf Ho Hi;
    cbn [fill_loop fst snd]; destruct (fNumChildren n <? db_maxlinks d) eqn:E;
    try (cbn [gpost]; exists [], []; rewrite app_nil_r; split; [now apply grown_refl|]; split; [assumption|lia]).
  - unfold room in Hr. cbn [fst snd] in Hr. lia.
  - unfold bind at 1. unfold on_db at 1. cbn [snd]. rewrite Done_spec. cbn [fst].
    pose proof (db_step_prepare d Ho) as Hq.
    assert (Gq : grown n d n (prepareNext d) [] []) by (eapply grown_quiet; [now apply grown_refl|assumption]).
    destruct (pend d) as [|e r] eqn:Ep.
    + unfold ret. cbn [gpost]. exists [], []. rewrite app_nil_r. split; [assumption|]. split.
      * eapply HIq; [exact Hi|apply pend_prepare|eapply cfg_step, Hq].
      * right. rewrite pend_prepare. assumption.
    + set (d1 := prepareNext d) in *.
      assert (Ep1 : pend d1 = e :: r) by (unfold d1; rewrite pend_prepare; assumption).
      assert (Hc1 : cfg d1 = c) by (rewrite (cfg_step _ _ _ _ Hq); assumption).
      assert (G : gpost n d1 (fun n' d' css => I n' (css0 ++ css) d' /\ (db_maxlinks d' <= fNumChildren n' \/ pend d' = []))
         ((do _ <- (do c0 <- on_db mk ;; AddChild (fst c0) (snd c0)) ;; fill_loop mk fuel) (n, d1))).
      { eapply gpost_seq.
        - eapply (one_child c P mk (length (pend d1))); auto.
          + rewrite Ep1. exact Hmk.
          + apply (db_step_off _ _ _ _ Hq).
          + rewrite Ep1. discriminate.
        - intros n2 d2 css a G (x & sz & cs & d1' & -> & -> & HP & Hp2).
          assert (Hc2 : cfg d2 = c) by (rewrite (cfg_step _ _ _ _ (gr_step _ _ _ _ _ _ G)); assumption).
          eapply gpost_weaken.
          + apply (IH (with_child n x sz) d2 (css0 ++ [cs])); auto.
            * unfold room in *. cbn [fst snd] in *. rewrite fNum_child.
              assert (db_maxlinks d2 = db_maxlinks d) by (unfold cfg in *; congruence). lia.
            * eapply mk_ok_mono; [exact Hmk|]. rewrite <- Ep1. pose proof (grown_shorter _ _ _ _ _ _ G). lia.
            * eapply grown_file_ok, G.
            * eapply db_step_off, G.
            * eapply HI; [eapply (HIq n css0 d d1)| | | | | ].
              -- exact Hi.
              -- rewrite Ep1, Ep. reflexivity.
              -- rewrite Hc1, Hc. reflexivity.
              -- assert (db_maxlinks d1 = db_maxlinks d) by (unfold cfg in *; congruence). lia.
              -- rewrite Ep1. discriminate.
              -- exact HP.
              -- exact Hp2.
              -- rewrite Hc2, Hc1. reflexivity.
          + cbn beta. intros n3 d3 c3 a3 _ H. rewrite app_assoc. exact H. }
      assert (Eq : (do c0 <- on_db mk;; (do _ <- AddChild (fst c0) (snd c0);; fill_loop mk fuel)) (n, d1)
        = (do _ <- (do c0 <- on_db mk ;; AddChild (fst c0) (snd c0)) ;; fill_loop mk fuel) (n, d1)).
      { unfold bind. destruct (on_db mk (n, d1)) as [[] ?]; reflexivity. }
      rewrite Eq.
      assert (Hst : forall r, gpost n d1 (fun n' d' css => I n' (css0 ++ css) d' /\ (db_maxlinks d' <= fNumChildren n' \/ pend d' = [])) r ->
         gpost n d (fun n' d' css => I n' (css0 ++ css) d' /\ (db_maxlinks d' <= fNumChildren n' \/ pend d' = [])) r).
      { clear -Gq Hq Ho. intros [[u|e| |] [n' d']]; cbn [gpost]; auto.
        - intros (css & a & G & K). exists css, a. split; [|exact K].
          pose proof (grown_trans _ _ _ _ _ _ _ _ _ _ Gq G) as GG. exact GG.
        - intros [K1 K2]. split.
          + intros F. apply K1. eapply faultless_step; eassumption.
          + eapply wups_trans; [eapply db_step_quiet, Hq|assumption]. }
      apply Hst, G.
Qed.

Lemma gpost_prepare n d Q r : file_ok (f_file n) -> 0 <= db_offset d < two64 ->
  gpost n (prepareNext d) Q r -> gpost n d Q r.
Proof.
  intros Hf Ho. pose proof (db_step_prepare d Ho) as Hq.
  assert (Gq : grown n d n (prepareNext d) [] []) by (eapply grown_quiet; [now apply grown_refl|assumption]).
  destruct r as [[u|e| |] [n' d']]; cbn [gpost]; auto.
  - intros (css & a & G & K). exists css, a. split; [|exact K].
    exact (grown_trans _ _ _ _ _ _ _ _ _ _ Gq G).
  - intros [K1 K2]. split.
    + intros F. apply K1. eapply faultless_step; eassumption.
    + eapply wups_trans; [eapply db_step_quiet, Hq|assumption].
Qed.

(** ** Finished nodes *)

Definition committed (n : fsn) : Prop := GetBytes (f_file n) = Ok (f_bytes n).

Lemma file_dag_some n cs : file_dag n cs -> cs <> [].
Proof.
  revert cs. induction n as [p d|p d ls IH] using node_ind'; intros cs H; inversion H; subst; try discriminate.
  destruct ls as [|l ls]; [congruence|]. inversion IH; subst. cbn [map] in *.
  match goal with H : Forall2 _ _ _ |- _ => inversion H; subst end.
  cbn [concat]. intros E. apply app_eq_nil in E as [E _]. subst. eapply H2; [eassumption|reflexivity].
Qed.

Lemma grown_new_good n0 d0 n d css a t : n0 = NewFSNodeOverDag (db_builder d0) t -> leaf_ok t ->
  grown n0 d0 n d css a -> good_data (f_file n).
Proof.
  intros -> Ht G. apply good_data_nounrec.
  - unfold fields_ok. rewrite (gr_type _ _ _ _ _ _ G), (gr_data _ _ _ _ _ _ G), (gr_ht _ _ _ _ _ _ G), (gr_fo _ _ _ _ _ _ G), (gr_size _ _ _ _ _ _ G), (gr_blocks _ _ _ _ _ _ G).
    cbn. destruct Ht as [-> | ->]; unfold TFile, TRaw; repeat split; try lia; try apply u64_range;
    (apply Forall_forall; intros z Hz; apply in_map_iff in Hz as (cs & <- & _); apply u64_range).
  - rewrite (gr_unrec _ _ _ _ _ _ G). reflexivity.
Qed.

Lemma new_made d n d' css a : let n0 := NewFSNodeOverDag (db_builder d) TFile in
  grown n0 d n d' css a -> committed n -> css <> [] ->
  made d d' (GetDagNode n, None) (fFileSize n) (concat css) a.
Proof.
  intros n0 G Hc Hcs.
  assert (Hg : good_data (f_file n)) by (eapply (grown_new_good n0); [reflexivity|left; reflexivity|exact G]).
  assert (Hdec : FSNodeFromBytes (f_bytes n) = Ok (f_file n)) by (eapply unmarshal_marshal; [exact Hg|exact Hc]).
  destruct (gr_links _ _ _ _ _ _ G) as (ls & El & U & F & X & A). cbn in El.
  assert (Ht : getType (f_file n) = TFile) by (unfold getType; rewrite (gr_type _ _ _ _ _ _ G); reflexivity).
  pose proof (gr_size _ _ _ _ _ _ G) as Hs. cbn in Hs. rewrite Z.add_0_l in Hs.
  assert (Hls : ls <> []).
  { intros ->. destruct css; [now apply Hcs|]. inversion F. }
  constructor; cbn [fst].
  - apply G.
  - unfold GetDagNode. rewrite El. econstructor; try eassumption.
    + left. exact Ht.
    + unfold getData. rewrite (gr_data _ _ _ _ _ _ G). reflexivity.
    + rewrite (gr_blocks _ _ _ _ _ _ G). reflexivity.
  - unfold fFileSize, FileSize, size. rewrite Ht. cbn. unfold getFilesize. rewrite Hs. reflexivity.
  - unfold below_in. cbn [GetDagNode node_links]. rewrite El. exact A.
  - rewrite fs_entries_app. cbn. rewrite app_nil_r. apply G.
  - apply tsizes_node. cbn. rewrite El. exact X.
  - apply G.
  - destruct css as [|c css]; [congruence|]. pose proof (gr_some _ _ _ _ _ _ G) as HS. inversion HS; subst.
    cbn. destruct c; [congruence|]. discriminate.
Qed.

Lemma with_new_made d m Q : let n0 := NewFSNodeOverDag (db_builder d) TFile in
  gpost n0 d (fun n d' css => Q n d' css /\ committed n /\ css <> []) (m (n0, d)) ->
  mk_post (fun x cs d' => exists n css a, x = GetDagNode n /\ cs = concat css /\ grown n0 d n d' css a /\ Q n d' css /\ committed n /\ css <> [])
    d (with_new n0 m d).
Proof.
  intros n0 H. unfold with_new. destruct (m (n0, d)) as [[u|e| |] [n d']]; cbn [gpost] in H; cbn [mk_post]; auto.
  destruct H as (css & a & G & HQ & Hc & Hcs). exists (concat css), a. cbn [fst]. split.
  - now apply new_made.
  - exists n, css, a. auto 10.
Qed.

(** ** Block formats of finished nodes *)

Definition uni (d : db) (t : Z) : node -> Prop :=
  uniform (db_raw d) (if db_raw d then raw_prefix (db_builder d) else proto_prefix (db_builder d)) (proto_prefix (db_builder d)).

Lemma uni_leaf d t n : leaf_of (db_raw d) (db_builder d) t n -> uni d t n.
Proof.
  intros H m Hr. pose proof (leaf_of_links _ _ _ _ H) as Hl.
  assert (m = n) as -> by (inversion Hr; subst; [reflexivity|rewrite Hl in *; contradiction]).
  split; [|congruence]. intros _. unfold leaf_of in H. destruct (db_raw d).
  - destruct H as (b & ->). split; [reflexivity|eauto].
  - destruct H as (b & -> & _). split; [reflexivity|eauto].
Qed.

Lemma uni_node d t p b ls : p = proto_prefix (db_builder d) -> ls <> [] -> Forall (fun l => uni d t (lto l)) ls -> uni d t (NProto p b ls).
Proof.
  intros -> Hls HF m Hr. inversion Hr; subst.
  - cbn. split; [intros E; now destruct (Hls E)|reflexivity].
  - cbn in H. rewrite Forall_forall in HF. exact (HF l H m H0).
Qed.
Lemma uni_cfg d d' t n : cfg d' = cfg d -> uni d t n -> uni d' t n.
Proof. unfold cfg, uni. intros E. injection E as -> _ -> _. auto. Qed.

Lemma mk_post_weaken (P P' : node -> list bytes -> db -> Prop) d r : mk_post P d r ->
  (forall x sz cs d' a, made d d' x sz cs a -> P (fst x) cs d' -> P' (fst x) cs d') -> mk_post P' d r.
Proof.
  destruct r as [[[x sz]|e| |] d']; cbn [mk_post]; auto. intros (cs & a & H & HP) K. exists cs, a. eauto.
Qed.

Lemma gpost_err n0 d0 Q e n d : gpost n0 d0 Q (Err e, (n, d)) -> ~ faultless d0 /\ wups (db_w d0) (db_w d).
Proof. exact (fun H => H). Qed.
