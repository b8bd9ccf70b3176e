(** The theorems about sharded directories, in the form stated in PropertiesHamt.v. *)
From Verif Require Import Base Pb PbProofs FSNode FSNodeProofs Dag DagProofs Builder HashBits Bitfield SpecHash HashProofs Hamt SpecHamt HamtExec HamtRep HamtNode HamtRun.

Lemma valid_lg W : valid_width W <-> exists lg, 3 <= lg <= 10 /\ Logtwo W = Ok lg /\ Z.log2 W = lg.
Proof.
  split.
  - intros ((k & Hk & ->) & Hm & Hle). exists k. assert (3 <= k). { destruct (Z_lt_ge_dec k 3); [|lia]. assert (k = 0 \/ k = 1 \/ k = 2) as [->|[->| ->]] by lia; discriminate. }
    assert (k <= 10). { destruct (Z_le_gt_dec k 10); [assumption|]. pose proof (Z.pow_le_mono_r 2 11 k ltac:(lia) ltac:(lia)). change (2 ^ 11) with 2048 in *. lia. }
    split; [lia|]. split; [now apply Logtwo_ok|]. now apply Z.log2_pow2.
  - intros (lg & H1 & H2 & _). pose proof (W_bounds lg W H1 H2). apply Logtwo_ok in H2 as [H2 ->]. split; [exists lg; auto|]. lia.
Qed.

(** ** Widths *)

Lemma NewShard_width v : (valid_width v -> exists s, NewShard v = Ok s /\ s_size s = v) /\ (~ valid_width v -> exists e, NewShard v = Err e).
Proof.
  split.
  - intros H. apply valid_lg in H as (lg & H1 & H2 & _). unfold NewShard, NewShardValue. rewrite (makeShard_W lg v H1 H2). eexists. split; reflexivity.
  - intros H. unfold NewShard, NewShardValue, makeShard. destruct (Logtwo v) as [k|e| |] eqn:E.
    + cbn [rbind]. apply Logtwo_ok in E as [E1 E2]. unfold newChilder, maximumHamtWidth. destruct (1024 <? v) eqn:Ew; [eexists; reflexivity|].
      unfold NewBitfield. pose proof (Z.pow_pos_nonneg 2 k ltac:(lia) E1). replace (v <? 0) with false by lia. destruct (v mod 8 =? 0) eqn:Em; [|eexists; reflexivity].
      exfalso. apply H. split; [exists k; auto|]. lia.
    + eexists. reflexivity.
    + exfalso. rewrite Logtwo_err in E; [discriminate|]. intros n Hn. apply Logtwo_ok in Hn. congruence.
    + exfalso. rewrite Logtwo_err in E; [discriminate|]. intros n Hn. apply Logtwo_ok in Hn. congruence.
Qed.

Lemma decoded_good d fsn : FSNodeFromBytes d = Ok fsn -> fields_ok fsn.
Proof. intros H. apply unmarshal_good in H as [[H _] _]. exact H. Qed.
Lemma load_width p d ls fsn : FSNodeFromBytes d = Ok fsn -> getType fsn = THAMTShard -> getHashType fsn = HashMurmur3 ->
  (valid_width (getFanout fsn) -> 8 * zlen (getData fsn) <= getFanout fsn -> exists s, NewHamtFromDag (NProto p d ls) = Ok s /\ s_size s = getFanout fsn) /\
  (valid_width (getFanout fsn) -> getFanout fsn < 8 * zlen (getData fsn) -> NewHamtFromDag (NProto p d ls) = Panic) /\
  (~ valid_width (getFanout fsn) -> exists e, NewHamtFromDag (NProto p d ls) = Err e).
Proof.
  intros E Et Eh. assert (R : 0 <= getFanout fsn < two64).
  { apply decoded_good in E as (_ & _ & _ & _ & _ & H). unfold getFanout. destruct (d_fanout fsn); [exact H|unfold two64; lia]. }
  unfold NewHamtFromDag. rewrite E. cbn [rbind]. rewrite Et, Eh, !Z.eqb_refl. cbn [negb].
  assert (V : valid_width (getFanout fsn) -> exists lg, 3 <= lg <= 10 /\ Logtwo (getFanout fsn) = Ok lg /\ i64 (getFanout fsn) = getFanout fsn).
  { intros Hv. destruct (proj1 (valid_lg _) Hv) as (lg & H1 & H2 & _). exists lg. split; [assumption|]. split; [assumption|]. pose proof (W_bounds lg _ H1 H2). unfold i64, two63, two64. unfold two64 in R. lia. }
  split; [|split].
  - intros Hv Hl. destruct (V Hv) as (lg & H1 & H2 & ->). rewrite (makeShard_W lg _ H1 H2). cbn [rbind s_bf s_size]. unfold bf_setbytes. pose proof (zeros_len lg _ H1 H2).
    replace (_ <? _) with false by lia. eexists. split; reflexivity.
  - intros Hv Hl. destruct (V Hv) as (lg & H1 & H2 & ->). rewrite (makeShard_W lg _ H1 H2). cbn [rbind s_bf s_size]. unfold bf_setbytes. pose proof (zeros_len lg _ H1 H2).
    replace (_ <? _) with true by lia. reflexivity.
  - intros Hv. assert (Hv' : ~ valid_width (i64 (getFanout fsn))).
    { intros Hx. destruct (proj1 (valid_lg _) Hx) as (lg & H1 & H2 & _). pose proof (W_bounds lg _ H1 H2) as B. apply Hv. replace (getFanout fsn) with (i64 (getFanout fsn)); [assumption|].
      unfold i64, two63, two64 in *. lia. }
    destruct (proj2 (NewShard_width _) Hv') as [e He]. unfold NewShard, NewShardValue in He. rewrite He. eexists. reflexivity.
Qed.

(** ** Histories from a new directory *)

Section Facts.
  Variables (hash : bytes -> bytes) (n : nat) (W : Z) (b : option prefix).
  Hypothesis Hn : (2 <= n)%nat.
  Hypothesis Hh : forall k, length (hash k) = n.
  Hypothesis Hv : valid_width W.

  Lemma setup : exists lg, 3 <= lg <= 10 /\ Logtwo W = Ok lg /\ (forall k, 8 * zlen (hash k) = 8 * Z.of_nat n) /\ (forall p, proto_prefix b = p -> p = proto_prefix (Some p)) /\
    lg <= 8 * Z.of_nat n /\ usable n W = 8 * Z.of_nat n / lg * lg.
  Proof.
    destruct (proj1 (valid_lg W) Hv) as (lg & H1 & H2 & H3). exists lg. split; [assumption|]. split; [assumption|]. split; [intros k; unfold zlen; now rewrite Hh|].
    split; [intros p <-; symmetry; apply proto_prefix_idem|]. split; [lia|]. unfold usable. now rewrite H3.
  Qed.

  Lemma new_dir_ok : exists s, new_dir W b = Ok s.
  Proof. destruct (proj1 (NewShard_width W) Hv) as (s & E & _). exists (SetCidBuilder b s). unfold new_dir. now rewrite E. Qed.

  (** A history from a new directory, and any later one. *)
  Lemma run_new ops s w : new_dir W b = Ok s -> named_ops ops ->
    let (h, sw) := hrun hash ops (s, w) in
    conforms hash (usable n W) (existsb is_reload ops = true /\ exists x, w_getok w x = false) dempty h /\ map o_op h = ops.
  Proof.
    intros E HF. destruct setup as (lg & H1 & H2 & H3 & H4 & H5 & H6). rewrite H6.
    pose proof (run_ok hash (8 * Z.of_nat n) lg W (eq (proto_prefix b)) H1 H2 H3 H4 H5 ops (fun _ => False) dempty (s, w) (existsb is_reload ops = true /\ exists x, w_getok w x = false)
      (inv_new hash _ lg W (eq (proto_prefix b)) H1 H2 H3 H5 b s w eq_refl E) HF) as R. cbn [snd] in R.
    specialize (R ltac:(intros (x & [] & _)) ltac:(auto)). destruct (hrun hash ops (s, w)) as [h sw]. destruct R as (R1 & _ & R2 & _). auto.
  Qed.

  Lemma reached_inv lg s w d : 3 <= lg <= 10 -> Logtwo W = Ok lg -> (forall k, 8 * zlen (hash k) = 8 * Z.of_nat n) -> (forall p, proto_prefix b = p -> p = proto_prefix (Some p)) ->
    lg <= 8 * Z.of_nat n -> reached hash W b s w d -> exists U, inv hash (8 * Z.of_nat n) lg W (eq (proto_prefix b)) U d (s, w).
  Proof.
    intros H1 H2 H3 H4 H5 (s0 & w0 & ops & h & E & HF & Er & ->).
    pose proof (run_ok hash (8 * Z.of_nat n) lg W (eq (proto_prefix b)) H1 H2 H3 H4 H5 ops (fun _ => False) dempty (s0, w0) True
      (inv_new hash _ lg W (eq (proto_prefix b)) H1 H2 H3 H5 b s0 w0 eq_refl E) HF ltac:(auto) ltac:(auto)) as R. rewrite Er in R. destruct R as (_ & _ & _ & V & R & _). eauto.
  Qed.

  Lemma missing_get U w : missing U w -> exists x, w_getok w x = false.
  Proof. intros (x & _ & H). eauto. Qed.

  (** Any later history conforms too. *)
  Lemma run_later s w d ops : reached hash W b s w d -> named_ops ops ->
    conforms hash (usable n W) (exists x, w_getok w x = false) d (fst (hrun hash ops (s, w))).
  Proof.
    intros HR HF. destruct setup as (lg & H1 & H2 & H3 & H4 & H5 & H6). rewrite H6. destruct (reached_inv lg s w d H1 H2 H3 H4 H5 HR) as [U HI].
    pose proof (run_ok hash (8 * Z.of_nat n) lg W (eq (proto_prefix b)) H1 H2 H3 H4 H5 ops U d (s, w) (exists x, w_getok w x = false) HI HF (missing_get U w) ltac:(auto)) as R.
    destruct (hrun hash ops (s, w)) as [h sw]. apply R.
  Qed.

  (** Collisions. *)
  Lemma deep_iff s w d k l : reached hash W b s w d -> k <> [] -> (forall x, w_getok w x = true) ->
    let (r, s') := SetLink hash w k l s in
    (r = Err ETooDeep <-> too_deep hash (usable n W) d k) /\
    (r <> Ok tt -> r = Err ETooDeep /\ forall ops, named_ops ops -> conforms hash (usable n W) False d (fst (hrun hash ops (s', w)))).
  Proof.
    intros HR Hk Hg. destruct setup as (lg & H1 & H2 & H3 & H4 & H5 & H6). rewrite H6. destruct (reached_inv lg s w d H1 H2 H3 H4 H5 HR) as [U HI].
    unfold SetLink, bind, get_shard. pose proof (swap_dir hash (8 * Z.of_nat n) lg W (eq (proto_prefix b)) H1 H2 H3 H4 H5 U d s w k (Some (mkLink (linkNamePrefix s 0 ++ k) (lsize l) (lto l))) HI Hk ltac:(eapply setlink_prefixed; first [exact H1|exact H2|exact H3|exact HI])) as S1.
    destruct (swapValue _ _ _ _ _ _ _) as [r s']. destruct r as [o|e| |]; try contradiction.
    - destruct S1 as (_ & _ & S3 & _). cbn [ret]. split; [split; [discriminate|intros H; contradiction]|]. intros H. exfalso. now apply H.
    - destruct S1 as [S1 S2].
      assert (e = ETooDeep /\ too_deep hash (8 * Z.of_nat n / lg * lg) d k) as [-> Ht].
      { destruct S2 as [(_ & Hx & _)|[(-> & _ & Ht)|(_ & x & _ & Hx)]]; [discriminate|auto|]. rewrite Hg in Hx. discriminate. }
      split; [split; auto|]. intros _. split; [reflexivity|]. intros ops HF.
      pose proof (run_ok hash (8 * Z.of_nat n) lg W (eq (proto_prefix b)) H1 H2 H3 H4 H5 ops U d (s', w) False S1 HF) as R. cbn [snd] in R.
      specialize (R ltac:(intros (x & _ & Hx); rewrite Hg in Hx; discriminate) ltac:(intros _ (x & Hx); rewrite Hg in Hx; discriminate)). destruct (hrun hash ops (s', w)) as [h sw]. apply R.
  Qed.

  (** Enumeration with a callback. *)
  Lemma each_reached s w d cb : reached hash W b s w d -> exists es, listing d es /\
    let '(r, (s', acc)) := ForEachLink w cb (s, []) in
    match r with
    | Ok _ => feed cb [] es = (None, acc)
    | Err e => feed cb [] es = (Some e, acc) \/
        (e = EFetch /\ (exists x, w_getok w x = false) /\ exists es1 es2, es = es1 ++ es2 /\ feed cb [] es1 = (None, acc))
    | _ => False
    end /\ forall ops, named_ops ops -> conforms hash (usable n W) (exists x, w_getok w x = false) d (fst (hrun hash ops (s', w))).
  Proof.
    intros HR. destruct setup as (lg & H1 & H2 & H3 & H4 & H5 & H6). rewrite H6. destruct (reached_inv lg s w d H1 H2 H3 H4 H5 HR) as [U HI].
    destruct (each_dir hash (8 * Z.of_nat n) lg W (eq (proto_prefix b)) H1 H2 H3 H4 U d s w cb HI) as (es & Hl & S1). exists es. split; [assumption|].
    destruct (ForEachLink w cb (s, [])) as [r [s' acc]]. destruct S1 as [S1 S2]. split.
    - destruct r as [u|e| |]; try contradiction; [assumption|]. destruct S2 as [S2|(-> & Hm & S2)]; [now left|]. right. split; [reflexivity|]. split; [eapply missing_get; eauto|assumption].
    - intros ops HF. pose proof (run_ok hash (8 * Z.of_nat n) lg W (eq (proto_prefix b)) H1 H2 H3 H4 H5 ops U d (s', w) (exists x, w_getok w x = false) S1 HF (missing_get U w) ltac:(auto)) as R.
      destruct (hrun hash ops (s', w)) as [h sw]. apply R.
  Qed.

  (** Saving and reloading. *)
  Lemma reload_reached s w d nd w1 : reached hash W b s w d -> Node s w = (Ok nd, w1) ->
    exists s', NewHamtFromDag nd = Ok s' /\
      (forall w2, wext w1 w2 -> let (r, w3) := Node s' w2 in r = Ok nd \/ (r = Err EAdd /\ add_failed w2 w3)) /\
      (forall w2 ops, wext w1 w2 -> named_ops ops -> conforms hash (usable n W) (exists x, w_getok w2 x = false) d (fst (hrun hash ops (s', w2)))).
  Proof.
    intros HR E. destruct setup as (lg & H1 & H2 & H3 & H4 & H5 & H6). rewrite H6. destruct (reached_inv lg s w d H1 H2 H3 H4 H5 HR) as [U HI].
    destruct (node_dir hash (8 * Z.of_nat n) lg W (eq (proto_prefix b)) H1 H2 H3 U d s w HI) as (kids & Hr & Hw & Hd & r & w' & E' & X & Hp). rewrite E in E'. injection E' as <- <-.
    destruct Hp as [((nd' & Ep & Hs) & Ha)|[Ep _]]; [|discriminate]. injection Ep as <-.
    destruct (load_ser hash (8 * Z.of_nat n) lg W (eq (proto_prefix b)) H1 H2 H3 (fun m => stored w1 m = true) kids 0 nd Hw Hs H4) as (ds & El & Hr' & _). exists ds. split; [assumption|].
    assert (HI2 : forall w2, wext w1 w2 -> inv hash (8 * Z.of_nat n) lg W (eq (proto_prefix b)) (fun m => stored w1 m = true) d (ds, w2)).
    { intros w2 Hx. split; [cbn; intros m Hm; eapply wext_stored; eauto|]. exists kids. auto. }
    split.
    - intros w2 Hx. destruct (node_spec hash (8 * Z.of_nat n) lg W (eq (proto_prefix b)) H1 H2 H3 (fun m => stored w1 m = true) kids 0 ds w2 Hr' Hw (proj1 (HI2 w2 Hx))) as (r & w3 & -> & _ & [((nd' & -> & Hs') & _)|[-> Hf]]); [|auto].
      left. f_equal. exact (ser_unique lg W _ H1 _ _ _ (fun p q (E1 : _ = p) (E2 : _ = q) => eq_trans (eq_sym E1) E2) _ _ Hs' Hs).
    - intros w2 ops Hx HF.
      pose proof (run_ok hash (8 * Z.of_nat n) lg W (eq (proto_prefix b)) H1 H2 H3 H4 H5 ops _ d (ds, w2) (exists x, w_getok w2 x = false) (HI2 w2 Hx) HF (missing_get _ w2) ltac:(auto)) as R.
      destruct (hrun hash ops (ds, w2)) as [h sw]. apply R.
  Qed.

  (** Node stores the whole DAG. *)
  Lemma node_stored s w d : reached hash W b s w d ->
    let (r, w') := Node s w in
    match r with
    | Ok nd => stored w' nd = true
    | Err e => e = EAdd /\ add_failed w w'
    | _ => False
    end.
  Proof.
    intros HR. destruct setup as (lg & H1 & H2 & H3 & H4 & H5 & H6). destruct (reached_inv lg s w d H1 H2 H3 H4 H5 HR) as [U HI].
    destruct (node_dir hash (8 * Z.of_nat n) lg W (eq (proto_prefix b)) H1 H2 H3 U d s w HI) as (kids & Hr & Hw & Hd & r & w' & -> & X & Hp).
    destruct Hp as [((nd & -> & Hs) & Ha)|[-> Hf]]; [|auto]. exact (ser_U lg W _ H1 _ _ _ Hs).
  Qed.
End Facts.

(** One shape per content. *)
Lemma one_shape hash n W b1 b2 s1 w1 d1 s2 w2 d2 n1 n2 w1' w2' : (2 <= n)%nat -> (forall k, length (hash k) = n) -> valid_width W -> proto_prefix b1 = proto_prefix b2 ->
  reached hash W b1 s1 w1 d1 -> reached hash W b2 s2 w2 d2 -> deq d1 d2 -> Node s1 w1 = (Ok n1, w1') -> Node s2 w2 = (Ok n2, w2') -> n1 = n2.
Proof.
  intros Hn Hh Hv Hb R1 R2 Hd E1 E2.
  destruct (setup hash n W b1 Hn Hh Hv) as (lg & H1 & H2 & H3 & H4 & H5 & H6).
  destruct (reached_inv hash n W b1 lg s1 w1 d1 H1 H2 H3 H4 H5 R1) as [U HI1].
  assert (H4' : forall p, proto_prefix b2 = p -> p = proto_prefix (Some p)) by (intros p <-; symmetry; apply proto_prefix_idem).
  destruct (reached_inv hash n W b2 lg s2 w2 d2 H1 H2 H3 H4' H5 R2) as [V HI2]. rewrite <- Hb in HI2.
  eapply (inv_node_eq hash (8 * Z.of_nat n) lg W (eq (proto_prefix b1)) H1 H2 H3 U V d1 s1 w1 s2 w2); eauto; [congruence|].
  eapply inv_dir; [exact HI2|]. intros k. symmetry. apply Hd.
Qed.

(** ** Statements with the parameters in another order *)

Lemma next_groups h ws : Forall (fun i => 0 < i <= 62) ws -> sumZ ws <= 8 * zlen h -> next_all (mkHB h 0) ws = Ok (map bits_value (groups ws (all_bits h)), mkHB h (sumZ ws)).
Proof. intros HF Hs. rewrite next_all_ok; [reflexivity|lia| |lia]. eapply Forall_impl; [|exact HF]. cbn. intros; lia. Qed.
Lemma sumZ_nonneg ws : Forall (fun i => 0 < i <= 62) ws -> 0 <= sumZ ws.
Proof. induction 1; [cbn; lia|]. change (sumZ (x :: l)) with (x + sumZ l). lia. Qed.
Lemma next_fails h ws i : Forall (fun i => 0 < i <= 62) ws -> sumZ ws <= 8 * zlen h -> 0 < i <= 62 ->
  exists vs hb, next_all (mkHB h 0) ws = Ok (vs, hb) /\ (Next hb i = Err ETooDeep <-> 8 * zlen h < sumZ ws + i) /\ (sumZ ws + i <= 8 * zlen h -> exists v hb', Next hb i = Ok (v, hb')).
Proof.
  intros HF Hs Hi. do 2 eexists. split; [now apply next_groups|]. pose proof (sumZ_nonneg ws HF). split; [split|].
  - intros E. destruct (Z_lt_ge_dec (8 * zlen h) (sumZ ws + i)); [assumption|]. rewrite next_ok in E by lia. discriminate.
  - intros Hl. now apply next_end.
  - intros Hl. rewrite next_ok by lia. eauto.
Qed.
Lemma from_dag_width p d ls fsn : FSNodeFromBytes d = Ok fsn -> getType fsn = THAMTShard -> getHashType fsn = HashMurmur3 -> 8 * zlen (getData fsn) <= getFanout fsn ->
  (valid_width (getFanout fsn) -> exists s, NewHamtFromDag (NProto p d ls) = Ok s /\ s_size s = getFanout fsn) /\ (~ valid_width (getFanout fsn) -> exists e, NewHamtFromDag (NProto p d ls) = Err e).
Proof. intros E Et Eh Hl. destruct (load_width p d ls fsn E Et Eh) as (A & _ & B). auto. Qed.
Lemma from_dag_panics p d ls fsn : FSNodeFromBytes d = Ok fsn -> getType fsn = THAMTShard -> getHashType fsn = HashMurmur3 ->
  valid_width (getFanout fsn) -> getFanout fsn < 8 * zlen (getData fsn) -> NewHamtFromDag (NProto p d ls) = Panic.
Proof. intros E Et Eh Hv Hl. destruct (load_width p d ls fsn E Et Eh) as (_ & A & _). auto. Qed.
Lemma slot_prefixes s i : 0 <= i < s_size s ->
  (0 < maxpadlen s)%nat /\ length (linkNamePrefix s i) = maxpadlen s /\ forall j, i < j < s_size s -> name_lt (linkNamePrefix s i) (linkNamePrefix s j).
Proof. exact (slot_names (s_size s) i). Qed.
Lemma map_history hash n W b ops s w : (2 <= n)%nat -> (forall k, length (hash k) = n) -> valid_width W -> named_ops ops -> existsb is_reload ops = false -> new_dir W b = Ok s ->
  let (h, _) := hrun hash ops (s, w) in conforms hash (usable n W) False dempty h /\ map o_op h = ops.
Proof.
  intros Hn Hh Hv HF Hr E. pose proof (run_new hash n W b Hn Hh Hv ops s w E HF) as R. destruct (hrun hash ops (s, w)) as [h sw]. destruct R as [R1 R2]. split; [|assumption].
  destruct (setup hash n W b Hn Hh Hv) as (lg & H1 & H2 & H3 & H4 & H5 & H6). rewrite H6 in *. eapply (conforms_weaken hash (8 * Z.of_nat n) lg); [|exact R1]. intros [H _]. congruence.
Qed.
Lemma reload_history hash n W b ops s w : (2 <= n)%nat -> (forall k, length (hash k) = n) -> valid_width W -> named_ops ops -> new_dir W b = Ok s ->
  let (h, _) := hrun hash ops (s, w) in conforms hash (usable n W) (exists x, w_getok w x = false) dempty h /\ map o_op h = ops.
Proof.
  intros Hn Hh Hv HF E. pose proof (run_new hash n W b Hn Hh Hv ops s w E HF) as R. destruct (hrun hash ops (s, w)) as [h sw]. destruct R as [R1 R2]. split; [|assumption].
  destruct (setup hash n W b Hn Hh Hv) as (lg & H1 & H2 & H3 & H4 & H5 & H6). rewrite H6 in *. eapply (conforms_weaken hash (8 * Z.of_nat n) lg); [|exact R1]. intros [_ H]. exact H.
Qed.
Lemma deep_iff' hash n W b s w d k l : (2 <= n)%nat -> (forall k, length (hash k) = n) -> valid_width W -> reached hash W b s w d -> k <> [] -> (forall x, w_getok w x = true) ->
  let (r, s') := SetLink hash w k l s in
  (r = Err ETooDeep <-> too_deep hash (usable n W) d k) /\
  (r <> Ok tt -> r = Err ETooDeep /\ forall ops, named_ops ops -> conforms hash (usable n W) False d (fst (hrun hash ops (s', w)))).
Proof. intros Hn Hh Hv. now apply deep_iff with (b := b). Qed.
Lemma reload_reached' hash n W b s w d nd w1 : (2 <= n)%nat -> (forall k, length (hash k) = n) -> valid_width W -> reached hash W b s w d -> Node s w = (Ok nd, w1) ->
  exists s', NewHamtFromDag nd = Ok s' /\
    (forall w2, wext w1 w2 -> let (r, w3) := Node s' w2 in r = Ok nd \/ (r = Err EAdd /\ add_failed w2 w3)) /\
    (forall w2 ops, wext w1 w2 -> named_ops ops -> conforms hash (usable n W) (exists x, w_getok w2 x = false) d (fst (hrun hash ops (s', w2)))).
Proof. intros Hn Hh Hv. now apply reload_reached. Qed.
Lemma node_stored' hash n W b s w d : (2 <= n)%nat -> (forall k, length (hash k) = n) -> valid_width W -> reached hash W b s w d ->
  let (r, w') := Node s w in match r with Ok nd => stored w' nd = true | Err e => e = EAdd /\ add_failed w w' | _ => False end.
Proof. intros Hn Hh Hv. now apply node_stored with (n := n). Qed.
Lemma each_reached' hash n W b s w d cb : (2 <= n)%nat -> (forall k, length (hash k) = n) -> valid_width W -> reached hash W b s w d ->
  exists es, listing d es /\
    let '(r, (s', acc)) := ForEachLink w cb (s, []) in
    match r with
    | Ok _ => feed cb [] es = (None, acc)
    | Err e => feed cb [] es = (Some e, acc) \/
        (e = EFetch /\ (exists x, w_getok w x = false) /\ exists es1 es2, es = es1 ++ es2 /\ feed cb [] es1 = (None, acc))
    | _ => False
    end /\ forall ops, named_ops ops -> conforms hash (usable n W) (exists x, w_getok w x = false) d (fst (hrun hash ops (s', w))).
Proof. intros Hn Hh Hv. now apply each_reached with (n := n) (b := b). Qed.
Lemma bf_set_ok' bf i : 0 <= i < 8 * zlen bf -> exists b, bf_set bf i = Ok b /\ zlen b = zlen bf /\ forall j, 0 <= j < 8 * zlen bf -> occupied b j = (j =? i) || occupied bf j.
Proof. apply bf_set_ok. Qed.
Lemma bf_unset_ok' bf i : 0 <= i < 8 * zlen bf -> exists b, bf_unset bf i = Ok b /\ zlen b = zlen bf /\ forall j, 0 <= j < 8 * zlen bf -> occupied b j = negb (j =? i) && occupied bf j.
Proof. apply bf_unset_ok. Qed.
Lemma slice_index_ok s i : 0 <= i < 8 * zlen (s_bf s) -> sliceIndex s i = Ok (occupied_before (s_bf s) i).
Proof. apply bf_before_ok. Qed.

(** The node of a successful Set or Swap is in the store. *)
Definition op_node (op : hop) : option node := match op with HSet _ n | HSwap _ n => Some n | _ => None end.
Lemma exec_stores hash op n s w r s' w' v : hexec hash op (s, w) = (r, (s', w')) -> op_node op = Some n -> r = Ok v -> stored w' (seal n) = true.
Proof.
  destruct op as [k m|k l|k m|k|k|k| | |]; cbn [op_node]; try discriminate; intros H E; injection E as ->; intros ->; cbn [hexec] in H.
  - unfold Set_, bind, Swap in H. destruct (dserv_add_spec n None w) as (ra & w1 & Ea & _ & _ & Ha). rewrite Ea in H.
    destruct Ha as [(-> & Hs & _)|[-> _]]; [|discriminate H]. destruct (swapValue _ _ _ _ _ _ _) as [r s1]. destruct r; cbn in H; inversion H; subst; assumption.
  - unfold Swap in H. destruct (dserv_add_spec n None w) as (ra & w1 & Ea & _ & _ & Ha). rewrite Ea in H.
    destruct Ha as [(-> & Hs & _)|[-> _]]; [|discriminate H]. destruct (swapValue _ _ _ _ _ _ _) as [r s1]. destruct r; cbn in H; inversion H; subst; assumption.
Qed.
Lemma history_stores hash n W b ops s w h s' w' : (2 <= n)%nat -> (forall k, length (hash k) = n) -> valid_width W -> named_ops ops -> new_dir W b = Ok s ->
  hrun hash ops (s, w) = (h, (s', w')) -> forall o k m v, In o h -> o_op o = HSet k m \/ o_op o = HSwap k m -> o_res o = Ok v -> stored w' (seal m) = true.
Proof.
  intros Hn Hh Hv HF E R o k m v Ho Hop Hr. destruct (setup hash n W b Hn Hh Hv) as (lg & H1 & H2 & H3 & H4 & H5 & H6).
  assert (HI := inv_new hash _ lg W (eq (proto_prefix b)) H1 H2 H3 H5 b s w eq_refl E). revert HI R. generalize (fun _ : node => False) as U. generalize dempty as d.
  clear E. revert s w h Ho. induction ops as [|op ops IH]; intros s w h Ho d U HI R; cbn [hrun] in R.
  - injection R as <- _ _. destruct Ho.
  - inversion HF as [|? ? F1 F2]; subst. pose proof (exec_ok hash (8 * Z.of_nat n) lg W (eq (proto_prefix b)) H1 H2 H3 H4 H5 U d (s, w) op HI F1) as S1.
    destruct (hexec hash op (s, w)) as [r [s1 w1]] eqn:Ex. destruct S1 as (X1 & _ & V & I1 & _). cbn [snd] in *.
    destruct (hrun hash ops (s1, w1)) as [os [s2 w2]] eqn:Er. injection R as <- <- <-. destruct Ho as [<-|Ho]; [|eapply IH; eauto].
    cbn [o_op o_res] in *. assert (Hs : stored w1 (seal m) = true) by (eapply exec_stores; eauto; destruct Hop as [->| ->]; reflexivity).
    pose proof (run_ok hash (8 * Z.of_nat n) lg W (eq (proto_prefix b)) H1 H2 H3 H4 H5 ops V _ (s1, w1) True I1 F2 ltac:(auto) ltac:(auto)) as R2. rewrite Er in R2.
    destruct R2 as (_ & X2 & _). eapply wext_stored; eauto.
Qed.
