(** Property C102. *)
From Verif Require Import Base Pb FSNode Dag Builder Importer Trickle SpecFile AppendRun Modifier SpecModifier ModifierFacts SpecFormat FormatProofs KindProofs.

(** C102: a modifier opened on a file all of whose blocks have CIDv0 adds only such blocks,
    whatever is called and however it ends, and returns such a file. *)
Theorem C102_v0 : forall split wbsize n w ops, of_format cidv0 n ->
  adds_format cidv0 w (snd (mod_history split wbsize ops (NewDagModifier n, w))) /\
  forall m s', mGetNode split (mod_history split wbsize ops (NewDagModifier n, w)) = (Ok m, s') -> of_format cidv0 m /\ adds_format cidv0 w (snd s').
Proof. exact history_v0. Qed.
Print Assumptions C102_v0.

(** The same for CIDv1 with any hash function; blocks are dag-pb or raw. *)
Theorem C102_v1 : forall split wbsize n w ops h k, k <> -1 -> of_format (cidv1 h k) n ->
  adds_format (cidv1 h k) w (snd (mod_history split wbsize ops (NewDagModifier n, w))) /\
  forall m s', mGetNode split (mod_history split wbsize ops (NewDagModifier n, w)) = (Ok m, s') -> of_format (cidv1 h k) m /\ adds_format (cidv1 h k) w (snd s').
Proof. exact history_v1. Qed.
Print Assumptions C102_v1.

(** In general: if the blocks of the file have formats in a set that contains dag-pb blocks
    with the version and hash function of the root, and, unless the root has CIDv0, raw
    blocks with its hash function, then so have all blocks added and returned. *)
Theorem C102_modify : forall (P : bool -> prefix -> Prop) split wbsize n w ops v c h k, node_prefix n = mkPrefix v c h k -> k <> -1 ->
  P false (mkPrefix v 112 h k) -> (0 < v -> P true (mkPrefix 1 85 h k)) -> of_format P n ->
  adds_format P w (snd (mod_history split wbsize ops (NewDagModifier n, w))) /\
  forall m s', mGetNode split (mod_history split wbsize ops (NewDagModifier n, w)) = (Ok m, s') -> of_format P m /\ adds_format P w (snd s').
Proof. exact history_format. Qed.
Print Assumptions C102_modify.

Example C102_modify_cases :
  of_format cidv0 (made_node false None) /\ of_format (cidv1 18 32) (made_node true (Some v1pb)) /\
  forallb (fun x => negb (node_eqb (edited_node (fst x) (snd x)) (made_node (fst x) (snd x))) &&
    (length (w_added (snd (made (fst x) (snd x)))) <? length (w_added (snd (edited (fst x) (snd x)))))%nat)
    [(false, None); (true, Some v1pb)] = true.
Proof. split; [apply v0_dec; vm_compute; reflexivity|]. split; [apply v1_dec; vm_compute; reflexivity|]. vm_compute. reflexivity. Qed.

(** Imports and Append: every block added has the format asked for, also if the call fails. *)
Theorem C102_balanced : forall (P : bool -> prefix -> Prop) fuel dbp fi spl w x w',
  P false (proto_prefix (pr_builder dbp)) -> (pr_raw dbp = true -> P true (raw_prefix (pr_builder dbp))) ->
  balanced_import fuel dbp fi spl w = (x, w') -> adds_format P w w' /\ (forall n, x = Ok n -> of_format P n).
Proof. exact balanced_format. Qed.
Print Assumptions C102_balanced.
Theorem C102_trickle : forall (P : bool -> prefix -> Prop) fuel dbp fi spl w x w',
  P false (proto_prefix (pr_builder dbp)) -> (pr_raw dbp = true -> P true (raw_prefix (pr_builder dbp))) ->
  trickle_import fuel dbp fi spl w = (x, w') -> adds_format P w w' /\ (forall n, x = Ok n -> of_format P n).
Proof. exact trickle_format. Qed.
Print Assumptions C102_trickle.
Theorem C102_append : forall (P : bool -> prefix -> Prop) fuel rfuel dbp fi spl base w x base' w',
  P false (proto_prefix (pr_builder dbp)) -> (pr_raw dbp = true -> P true (raw_prefix (pr_builder dbp))) -> of_format P base ->
  trickle_append fuel rfuel dbp fi spl base w = (x, base', w') -> adds_format P w w' /\ (forall n, x = Ok n -> of_format P n).
Proof. exact append_format. Qed.
Print Assumptions C102_append.
Example C102_import_cases : proto_prefix (pr_builder (params_of true (Some v1pb))) = mkPrefix 1 112 18 32 /\ raw_prefix (pr_builder (params_of true (Some v1pb))) = mkPrefix 1 85 18 32 /\
  (exists n w', trickle_import 9 (params_of true (Some v1pb)) false three_chunks astore = (Ok n, w')) /\
  (exists n w', balanced_import 9 (params_of true (Some v1pb)) false three_chunks astore = (Ok n, w')) /\
  exists x base' w', trickle_append 9 9 (params_of true (Some v1pb)) false three_chunks (made_node true (Some v1pb)) (snd (made true (Some v1pb))) = (Ok x, base', w').
Proof.
  split; [reflexivity|]. split; [reflexivity|]. split; [eexists _, _; vm_compute; reflexivity|]. split; [eexists _, _; vm_compute; reflexivity|]. eexists _, _, _. vm_compute. reflexivity.
Qed.

(** That the leaves keep their format is false: a CIDv1 file with dag-pb leaves gets raw
    leaves, and a CIDv0 file with raw leaves gets dag-pb leaves, when it is extended. *)
Theorem C102_leaves_refuted : exists split n w k s',
  raw_leaves false n /\ mGetNode split (mod_history split 100 [MSeek 0 2; MWrite [x41]] (NewDagModifier n, w)) = (Ok k, s') /\ ~ raw_leaves false k /\ ~ raw_leaves true k.
Proof. exact leaves_refuted. Qed.
Print Assumptions C102_leaves_refuted.
Theorem C102_leaves_v0_refuted : exists split n w k s',
  raw_leaves true n /\ mGetNode split (mod_history split 100 [MSeek 0 2; MWrite [x41]] (NewDagModifier n, w)) = (Ok k, s') /\ ~ raw_leaves false k /\ ~ raw_leaves true k.
Proof. exact leaves_refuted_v0. Qed.
Print Assumptions C102_leaves_v0_refuted.
