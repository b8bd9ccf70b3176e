(** Property C95: the sizes recorded in the links of a file stay true. *)
From Verif Require Import Base Pb FSNode Dag Builder Importer Reader Modifier SpecFile SpecModifier
  AppendRun AppendProofs ReaderWitness ModifierRun ModifierFacts PropertiesAppend SizesProofs SizesWitness.

(** C95: calls of a modifier in any order, with any arguments, chunker and failures of the
    DAG service: if the sizes in the links of the file were exact and its leaves are encoded
    as this library encodes them, then this is so of every node that GetNode returns. *)
Theorem C95_modified_partial : forall split wbsize n w ops k s',
  tsizes_exact n -> canonical_leaves n ->
  mGetNode split (mod_history split wbsize ops (NewDagModifier n, w)) = (Ok k, s') ->
  tsizes_exact k /\ canonical_leaves k.
Proof. exact history_fine. Qed.
Print Assumptions C95_modified_partial.

(** Missing: files with leaves encoded otherwise. Overwriting re-encodes the leaf and
    leaves the size in the link above as it was. *)
Theorem C95_other_encodings_refuted : exists split wbsize b off n w k s',
  tsizes_exact n /\ (exists c, file_content n c) /\ write_back split wbsize b off n w = (Ok k, s') /\ ~ tsizes_exact k.
Proof. exact sizes_refuted. Qed.
Print Assumptions C95_other_encodings_refuted.

(** Files this library makes meet the conditions... *)
Theorem C95_imports : forall root,
  (exists fuel dbp fi spl w w', balanced_import fuel dbp fi spl w = (Ok root, w')) \/
  (exists fuel dbp fi spl w w', trickle_import fuel dbp fi spl w = (Ok root, w')) ->
  tsizes_exact root /\ canonical_leaves root.
Proof. exact imports_fine. Qed.
Print Assumptions C95_imports.
(** ... also after appending, with any parameters; even the base node of an append that
    failed. *)
Theorem C95_append : forall fuel rfuel dbp fi spl base w r base' w',
  tsizes_exact base -> canonical_leaves base ->
  trickle_append fuel rfuel dbp fi spl base w = (r, base', w') ->
  (tsizes_exact base' /\ canonical_leaves base') /\ (forall root, r = Ok root -> tsizes_exact root /\ canonical_leaves root).
Proof. exact appended_fine. Qed.
Print Assumptions C95_append.

(** So the size of a file made and then modified with this library is that of its blocks. *)
Theorem C95_true_size : forall n split wbsize w ops k s',
  (exists fuel dbp fi spl w0 w1, balanced_import fuel dbp fi spl w0 = (Ok n, w1)) \/
  (exists fuel dbp fi spl w0 w1, trickle_import fuel dbp fi spl w0 = (Ok n, w1)) ->
  mGetNode split (mod_history split wbsize ops (NewDagModifier n, w)) = (Ok k, s') ->
  node_size k = mod64 (cumulative k).
Proof. exact true_size. Qed.
Print Assumptions C95_true_size.

(** Ten chunks with dag-pb leaves: overwritten, truncated and extended, while the DAG
    service refuses some blocks. *)
Definition refusing : world := mkWorld (fun _ => true) [] 0 (fun k => negb (k mod 5 =? 3)%nat) (fun _ => true).
Definition calls : list mop :=
  [MWriteAt [x41; x42] 3; MSync; MTruncate 14; MSeek 9 0; MWrite [x58; x59; x5a]; MSync; MSync; MTruncate 20; MWriteAt [x43] 30; MGetNode].
Definition before_last : mst := mod_history bytewise wb calls (NewDagModifier ten_base, refusing).
Example C95_case : (exists fuel dbp fi spl w w', trickle_import fuel dbp fi spl w = (Ok ten_base, w')) /\
  fst (mGetNode bytewise before_last) = Ok (ok_node (fst (mGetNode bytewise before_last))) /\
  ok_node (fst (mGetNode bytewise before_last)) <> ten_base.
Proof.
  split; [|split; [vm_compute; reflexivity|vm_compute; discriminate]].
  exists 20%nat, (limit 2), false, (map EvData ten), astore, (snd ten_import). vm_compute. reflexivity.
Qed.
