(** Properties C06-C13, C48-C52: the importers. *)
From Verif Require Import Base Pb FSNode Dag Builder Balanced Trickle Importer SpecFile ImportProofs TrickleEmpty.

(** A working store, and a source of five chunks. *)
Definition good_world : world := mkWorld (fun _ => false) [] 0 (fun _ => true) (fun _ => true).
Definition five : list bytes := [[x61; x62]; [x63]; [x64; x65]; []; [x66]].
(** Raw leaves with filestore references; wrapped leaves; at most two links. *)
Definition raw_fs : params := mkParams 2 true (Some (mkPrefix 1 112 18 (-1))) true.
Definition wrapped : params := mkParams 2 false None false.

(** C06: a successful balanced import holds exactly the chunks delivered, and the
    root records the length (below 2^64). *)
Theorem C06_balanced_content : forall fuel dbp fi spl w root w',
  balanced_import fuel dbp fi spl w = (Ok root, w') ->
  exists chunks, spl = map EvData chunks /\ file_content root (concat chunks) /\
    source_ok BlockSizeLimit chunks /\
    (zlen (concat chunks) < 18446744073709551616 -> recorded_size root (zlen (concat chunks))).
Proof. exact balanced_content. Qed.
Print Assumptions C06_balanced_content.

Example C06_case : exists root w', balanced_import 5 wrapped false (map EvData five) good_world = (Ok root, w') /\
  length (node_links root) = 2%nat /\ length (w_added w') = 11%nat.
Proof. eexists _, _. split; [vm_compute; reflexivity|]. split; reflexivity. Qed.

(** C07: shape of a balanced import. *)
Theorem C07_balanced_shape : forall fuel dbp fi spl w root w',
  balanced_import fuel dbp fi spl w = (Ok root, w') ->
  exists depth leaves, file_dag root leaves /\
    balanced (pr_maxlinks dbp) depth root /\ left_full (pr_maxlinks dbp) depth root /\
    zlen leaves <= pr_maxlinks dbp ^ Z.of_nat depth /\
    (depth <> 0%nat -> pr_maxlinks dbp ^ (Z.of_nat depth - 1) < zlen leaves).
Proof. exact balanced_shape. Qed.
Print Assumptions C07_balanced_shape.

Example C07_case : exists root w', balanced_import 5 raw_fs true (map EvData five) good_world = (Ok root, w') /\
  balanced 2 3 root.
Proof.
  eexists _, _. split; [vm_compute; reflexivity|]. vm_compute.
  repeat match goal with |- _ /\ _ => split | |- Forall _ _ => constructor end; congruence.
Qed.

(** C08: for limits of at least two the balanced import ends on every source and
    store, and succeeds if nothing fails. (Missing for the full claim: limits
    below two, see the refutation.) *)
Theorem C08_balanced_total_partial : forall dbp fi spl w fuel,
  2 <= pr_maxlinks dbp -> (length spl <= fuel)%nat ->
  (exists root, fst (balanced_import fuel dbp fi spl w) = Ok root) \/
  (exists e, fst (balanced_import fuel dbp fi spl w) = Err e).
Proof. exact balanced_total_. Qed.
Print Assumptions C08_balanced_total_partial.

Theorem C08_balanced_succeeds_partial : forall dbp fi chunks w fuel,
  2 <= pr_maxlinks dbp -> (length chunks <= fuel)%nat ->
  source_ok BlockSizeLimit chunks -> (forall i, w_addok w i = true) -> (pr_nocopy dbp = true -> fi = true) ->
  exists root w', balanced_import fuel dbp fi (map EvData chunks) w = (Ok root, w').
Proof. exact balanced_succeeds_. Qed.
Print Assumptions C08_balanced_succeeds_partial.

(** With a limit of at most one and two or more chunks it never ends. *)
Theorem C08_balanced_diverges : forall dbp fi chunks w fuel,
  pr_maxlinks dbp <= 1 -> (2 <= length chunks)%nat ->
  source_ok BlockSizeLimit chunks -> (forall i, w_addok w i = true) -> (pr_nocopy dbp = true -> fi = true) ->
  fst (balanced_import fuel dbp fi (map EvData chunks) w) = Fuel.
Proof. exact balanced_diverges_. Qed.
Print Assumptions C08_balanced_diverges.

Theorem C08_balanced_terminates_refuted : exists dbp fi spl w,
  forall fuel, fst (balanced_import fuel dbp fi spl w) = Fuel.
Proof. exact balanced_terminates_refuted. Qed.
Print Assumptions C08_balanced_terminates_refuted.

Example C08_case : 2 <= pr_maxlinks raw_fs /\ source_ok BlockSizeLimit five /\
  (forall i, w_addok good_world i = true) /\ (2 <= length five)%nat.
Proof. split; [reflexivity|]. split; [repeat (constructor; [discriminate|]); constructor|]. split; [reflexivity|cbn; auto with arith]. Qed.

(** C09: an import does not succeed if the source reports an error, delivers a
    chunk above the limit, or a block cannot be stored. *)
Theorem C09_balanced_source_error : forall fuel dbp fi spl w e,
  In (EvErr e) spl -> forall root, fst (balanced_import fuel dbp fi spl w) <> Ok root.
Proof. exact balanced_source_error. Qed.
Print Assumptions C09_balanced_source_error.
Theorem C09_trickle_source_error : forall fuel dbp fi spl w e,
  1 <= pr_maxlinks dbp -> (length spl < fuel)%nat ->
  In (EvErr e) spl -> forall root, fst (trickle_import fuel dbp fi spl w) <> Ok root.
Proof. exact trickle_source_error. Qed.
Print Assumptions C09_trickle_source_error.
Theorem C09_balanced_oversize : forall fuel dbp fi spl w b,
  In (EvData b) spl -> BlockSizeLimit < zlen b -> forall root, fst (balanced_import fuel dbp fi spl w) <> Ok root.
Proof. exact balanced_oversize. Qed.
Print Assumptions C09_balanced_oversize.
Theorem C09_trickle_oversize : forall fuel dbp fi spl w b,
  1 <= pr_maxlinks dbp -> (length spl < fuel)%nat ->
  In (EvData b) spl -> BlockSizeLimit < zlen b -> forall root, fst (trickle_import fuel dbp fi spl w) <> Ok root.
Proof. exact trickle_oversize. Qed.
Print Assumptions C09_trickle_oversize.

Example C09_case : In (EvErr ESplit) (map EvData five ++ [EvErr ESplit]) /\
  fst (balanced_import 9 wrapped false (map EvData five ++ [EvErr ESplit]) good_world) = Err ESplit.
Proof. split; [apply in_or_app; right; left; reflexivity|vm_compute; reflexivity]. Qed.

(** C10: every block of the result is in the DAG service. *)
Theorem C10_balanced_stored : forall fuel dbp fi spl w root w',
  balanced_import fuel dbp fi spl w = (Ok root, w') -> forall m, reach root m -> stored w' m = true.
Proof. exact balanced_stored. Qed.
Print Assumptions C10_balanced_stored.
Theorem C10_trickle_stored : forall fuel dbp fi spl w root w',
  1 <= pr_maxlinks dbp -> (length spl < fuel)%nat ->
  trickle_import fuel dbp fi spl w = (Ok root, w') -> forall m, reach root m -> stored w' m = true.
Proof. exact trickle_stored. Qed.
Print Assumptions C10_trickle_stored.

Example C10_case : exists root w', trickle_import 9 wrapped false (map EvData five) good_world = (Ok root, w') /\
  length (w_added w') = 8%nat.
Proof. eexists _, _. split; [vm_compute; reflexivity|]. reflexivity. Qed.

(** C11: filestore references: one per chunk, in order, each at the position of
    its chunk in the file. *)
Theorem C11_balanced_positions : forall fuel dbp fi spl w root w',
  balanced_import fuel dbp fi spl w = (Ok root, w') -> pr_nocopy dbp = true -> pr_raw dbp = true ->
  exists chunks added, spl = map EvData chunks /\ w_added w' = w_added w ++ added /\
    filestore_refs added = positions 0 chunks.
Proof. exact balanced_positions. Qed.
Print Assumptions C11_balanced_positions.
Theorem C11_trickle_positions : forall fuel dbp fi spl w root w',
  1 <= pr_maxlinks dbp -> (length spl < fuel)%nat ->
  trickle_import fuel dbp fi spl w = (Ok root, w') -> pr_nocopy dbp = true -> pr_raw dbp = true ->
  exists chunks added, spl = map EvData chunks /\ w_added w' = w_added w ++ added /\
    filestore_refs added = positions 0 chunks.
Proof. exact trickle_positions. Qed.
Print Assumptions C11_trickle_positions.
(** What [positions] means: the data is found at the offset. *)
Theorem C11_positions_locate : forall chunks b o, In (b, o) (positions 0 chunks) ->
  exists pre post, concat chunks = pre ++ b ++ post /\ o = mod64 (zlen pre).
Proof. exact positions_locate_0. Qed.
Print Assumptions C11_positions_locate.

Example C11_case : exists root w', trickle_import 9 raw_fs true (map EvData five) good_world = (Ok root, w') /\
  map snd (filestore_refs (w_added w')) = [0; 2; 3; 5; 5].
Proof. eexists _, _. split; [vm_compute; reflexivity|]. reflexivity. Qed.

(** C12: as C06 for the trickle layout. *)
Theorem C12_trickle_content : forall fuel dbp fi spl w root w',
  1 <= pr_maxlinks dbp -> (length spl < fuel)%nat ->
  trickle_import fuel dbp fi spl w = (Ok root, w') ->
  exists chunks, spl = map EvData chunks /\ file_content root (concat chunks) /\
    source_ok BlockSizeLimit chunks /\
    (zlen (concat chunks) < 18446744073709551616 -> recorded_size root (zlen (concat chunks))).
Proof. exact trickle_content. Qed.
Print Assumptions C12_trickle_content.

Example C12_case : exists root w', trickle_import 9 wrapped false (map EvData five) good_world = (Ok root, w') /\
  length (node_links root) = 4%nat /\ recorded_size root 6.
Proof.
  eexists _, _. split; [vm_compute; reflexivity|]. split; [reflexivity|].
  unfold recorded_size. eexists. split; [vm_compute; reflexivity|reflexivity].
Qed.

(** C13: the structure check accepts every trickle import. *)
Theorem C13_trickle_verifies : forall fuel dbp fi spl w root w' e,
  1 <= pr_maxlinks dbp -> (length spl < fuel)%nat ->
  trickle_import fuel dbp fi spl w = (Ok root, w') -> (forall m, w_getok w m = true) ->
  verifiable_prefix (pr_raw dbp) (pr_builder dbp) e ->
  VerifyTrickleDagStructure w' root (mkVparams (pr_maxlinks dbp) 4 e (pr_raw dbp)) = Ok tt.
Proof. exact trickle_verifies. Qed.
Print Assumptions C13_trickle_verifies.

Example C13_case : verifiable_prefix (pr_raw raw_fs) (pr_builder raw_fs) (Some (mkPrefix 1 112 18 (-1))) /\
  verifiable_prefix (pr_raw wrapped) (pr_builder wrapped) (Some v0prefix).
Proof. exact verifiable_case. Qed.

(** C48: cumulative link sizes are exact. *)
Theorem C48_balanced_tsize : forall fuel dbp fi spl w root w',
  balanced_import fuel dbp fi spl w = (Ok root, w') -> tsizes_exact root.
Proof. exact balanced_tsize. Qed.
Print Assumptions C48_balanced_tsize.
Theorem C48_trickle_tsize : forall fuel dbp fi spl w root w',
  1 <= pr_maxlinks dbp -> (length spl < fuel)%nat ->
  trickle_import fuel dbp fi spl w = (Ok root, w') -> tsizes_exact root.
Proof. exact trickle_tsize. Qed.
Print Assumptions C48_trickle_tsize.

Example C48_case : exists root w', balanced_import 5 wrapped false (map EvData five) good_world = (Ok root, w') /\
  map lsize (node_links root) = map (fun l => cumulative (lto l)) (node_links root) /\ 0 < zlen (node_links root).
Proof. eexists _, _. split; [vm_compute; reflexivity|]. vm_compute. split; reflexivity. Qed.

(** C49: the structure check accepts exactly the trickle files whose blocks below
    the root are available. *)
Theorem C49_verify_exact : forall w root k r raw e, 0 < r ->
  (VerifyTrickleDagStructure w root (mkVparams k r e raw) = Ok tt <->
   trickle_file k r raw e (-1) root /\ below_available w root).
Proof. exact verify_exact. Qed.
Print Assumptions C49_verify_exact.

(** Accepted: a trickle import; rejected: a balanced one with the same leaves. *)
Example C49_case : exists t w1 b w2,
  trickle_import 9 wrapped false (map EvData five) good_world = (Ok t, w1) /\
  balanced_import 5 wrapped false (map EvData five) good_world = (Ok b, w2) /\
  VerifyTrickleDagStructure w1 t (mkVparams 2 4 None false) = Ok tt /\
  VerifyTrickleDagStructure w2 b (mkVparams 2 4 None false) = Err EVerify.
Proof. eexists _, _, _, _. split; [vm_compute; reflexivity|]. split; [vm_compute; reflexivity|]. split; vm_compute; reflexivity. Qed.

(** C50: for limits of at least one the trickle import ends, and succeeds if
    nothing fails; for other limits it never ends (unless the input is empty). *)
Theorem C50_trickle_total_partial : forall dbp fi spl w fuel,
  1 <= pr_maxlinks dbp -> (length spl < fuel)%nat ->
  (exists root, fst (trickle_import fuel dbp fi spl w) = Ok root) \/
  (exists e, fst (trickle_import fuel dbp fi spl w) = Err e).
Proof. exact trickle_total_. Qed.
Print Assumptions C50_trickle_total_partial.
Theorem C50_trickle_succeeds_partial : forall dbp fi chunks w fuel,
  1 <= pr_maxlinks dbp -> (length chunks < fuel)%nat ->
  source_ok BlockSizeLimit chunks -> (forall i, w_addok w i = true) -> (pr_nocopy dbp = true -> fi = true) ->
  exists root w', trickle_import fuel dbp fi (map EvData chunks) w = (Ok root, w').
Proof. exact trickle_succeeds_. Qed.
Print Assumptions C50_trickle_succeeds_partial.
Theorem C50_trickle_diverges : forall dbp fi chunks w fuel,
  pr_maxlinks dbp <= 0 -> chunks <> [] ->
  source_ok BlockSizeLimit chunks -> (forall i, w_addok w i = true) -> (pr_nocopy dbp = true -> fi = true) ->
  fst (trickle_import fuel dbp fi (map EvData chunks) w) = Fuel.
Proof. exact trickle_diverges_. Qed.
Print Assumptions C50_trickle_diverges.
Theorem C50_trickle_terminates_refuted : exists dbp fi spl w,
  forall fuel, fst (trickle_import fuel dbp fi spl w) = Fuel.
Proof. exact trickle_terminates_refuted. Qed.
Print Assumptions C50_trickle_terminates_refuted.

Example C50_case : 1 <= pr_maxlinks wrapped /\ source_ok BlockSizeLimit five /\ five <> [] /\
  pr_maxlinks (mkParams 0 false None false) <= 0.
Proof. split; [discriminate|]. split; [repeat (constructor; [discriminate|]); constructor|]. split; discriminate. Qed.

(** C51: block formats: leaves are raw blocks exactly if asked for, all other blocks
    are dag-pb, and every CID has the prefix asked for. *)
Theorem C51_balanced_formats : forall fuel dbp fi spl w root w',
  balanced_import fuel dbp fi spl w = (Ok root, w') ->
  uniform (pr_raw dbp) (if pr_raw dbp then raw_prefix (pr_builder dbp) else proto_prefix (pr_builder dbp))
    (proto_prefix (pr_builder dbp)) root.
Proof. exact balanced_formats. Qed.
Print Assumptions C51_balanced_formats.
Theorem C51_trickle_formats : forall fuel dbp fi spl w root w',
  1 <= pr_maxlinks dbp -> (length spl < fuel)%nat -> spl <> [] ->
  trickle_import fuel dbp fi spl w = (Ok root, w') ->
  uniform (pr_raw dbp) (if pr_raw dbp then raw_prefix (pr_builder dbp) else proto_prefix (pr_builder dbp))
    (proto_prefix (pr_builder dbp)) root.
Proof. exact trickle_formats. Qed.
Print Assumptions C51_trickle_formats.

Example C51_case : raw_prefix (pr_builder raw_fs) = mkPrefix 1 85 18 32 /\
  proto_prefix (pr_builder raw_fs) = mkPrefix 1 112 18 32 /\
  proto_prefix (pr_builder wrapped) = mkPrefix 0 112 18 32 /\
  exists root w', trickle_import 9 raw_fs true (map EvData five) good_world = (Ok root, w').
Proof. split; [reflexivity|]. split; [reflexivity|]. split; [reflexivity|]. eexists _, _. vm_compute. reflexivity. Qed.

(** C52: a trickle import leaves free places only on the rightmost path. *)
Theorem C52_trickle_dense : forall fuel dbp fi spl w root w',
  1 <= pr_maxlinks dbp -> (length spl < fuel)%nat ->
  trickle_import fuel dbp fi spl w = (Ok root, w') -> left_complete (pr_maxlinks dbp) 4 root.
Proof. exact trickle_dense. Qed.
Print Assumptions C52_trickle_dense.

Example C52_case : exists root w', trickle_import 9 (mkParams 1 false None false) false (map EvData five) good_world = (Ok root, w') /\
  map (fun l => length (node_links (lto l))) (node_links root) = [0; 1; 1; 1; 1]%nat.
Proof. eexists _, _. split; [vm_compute; reflexivity|]. reflexivity. Qed.

(** The default parameters meet the limits required above. *)
Theorem C08_default_limit : pr_maxlinks default_params = 174 /\ 2 <= pr_maxlinks default_params.
Proof. exact default_limit. Qed.
Print Assumptions C08_default_limit.

(** C51: for an empty source the trickle layout makes one dag-pb block with the prefix asked
    for, also when raw leaves were asked for. *)
Theorem C51_trickle_empty : forall fuel dbp fi w root w', trickle_import fuel dbp fi [] w = (Ok root, w') -> exists d, root = NProto (proto_prefix (pr_builder dbp)) d [].
Proof. exact trickle_empty. Qed.
Print Assumptions C51_trickle_empty.
Example C51_empty_case : exists root w', trickle_import 9 raw_fs true [] good_world = (Ok root, w').
Proof. eexists _, _. vm_compute. reflexivity. Qed.
