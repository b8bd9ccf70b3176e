(** Property C100. *)
From Verif Require Import Base Pb FSNode Dag Builder Importer SpecFile SpecReader AppendRun Modifier SpecModifier ModifierFacts Directory SpecKind KindProofs.

(** C100: after any calls other than Truncate, with whatever outcomes and on whatever
    store, the node a modifier returns has the kind of the node it was opened on: CID
    prefix, raw or not, UnixFS type, hash type, fanout and unknown fields. (Missing for the
    full claim: Truncate of a file of one block, for which it is false.) *)
Theorem C100_kind_partial : forall split wbsize n w ops k s',
  forallb (fun o => negb (truncates o)) ops = true ->
  mGetNode split (mod_history split wbsize ops (NewDagModifier n, w)) = (Ok k, s') -> kind k = kind n.
Proof. exact history_kind. Qed.
Print Assumptions C100_kind_partial.

(** Truncate keeps the kind of a file with links, if nothing is buffered. *)
Theorem C100_truncate : forall split m w n size, m_node m = Some n -> m_buf m = None -> node_links n <> [] ->
  match m_node (fst (snd (mTruncate split size (m, w)))) with Some k => kind k = kind n | None => False end.
Proof. exact truncate_kind. Qed.
Print Assumptions C100_truncate.

(** After any calls at all, the node has its kind or is a plain block of type Raw with the
    same prefix; a raw block stays one. *)
Theorem C100_kinds : forall split wbsize n w ops k s',
  mGetNode split (mod_history split wbsize ops (NewDagModifier n, w)) = (Ok k, s') ->
  kind k = kind n \/ (fst (kind k) = fst (kind n) /\ snd (kind n) <> None /\ snd (kind k) = Some (Ok plain_block)).
Proof. exact history_kind_cut. Qed.
Print Assumptions C100_kinds.

(** Append keeps the kind, also of the node it was given and when it fails. *)
Theorem C100_append : forall fuel rfuel dbp fi spl base w,
  let '(r, base', _) := trickle_append fuel rfuel dbp fi spl base w in
  kind base' = kind base /\ (forall root, r = Ok root -> kind root = kind base).
Proof. exact append_kind. Qed.
Print Assumptions C100_append.

(** The full claim is false: truncating a file of one block gives a block of type Raw
    without the unknown fields. *)
Theorem C100_kind_refuted : exists split n w k,
  kind n = (v0prefix, Some (Ok (Some TFile, None, None, mode))) /\
  fst (mTruncate split 1 (NewDagModifier n, w)) = Ok tt /\
  m_node (fst (snd (mTruncate split 1 (NewDagModifier n, w)))) = Some k /\
  kind k = (v0prefix, Some (Ok plain_block)).
Proof. exact cut_refuted. Qed.
Print Assumptions C100_kind_refuted.

(** And a file of one block truncated to nothing is not the empty file. *)
Theorem C100_empty_refuted : exists split n w w' k, BuildDagFromReader 1 false [EvData [x61]] w = (Ok n, w') /\
  fst (mTruncate split 0 (NewDagModifier n, w')) = Ok tt /\
  m_node (fst (snd (mTruncate split 0 (NewDagModifier n, w')))) = Some k /\ EmptyFileNode <> Ok k.
Proof. exact cut_empty_refuted. Qed.
Print Assumptions C100_empty_refuted.

(** A file with a mode and a time, changed and extended; and one with two blocks, cut. *)
Definition written : res node := fst (mGetNode single (mod_history single 100 [MWriteAt [x63] 1; MSeek 0 2; MWrite [x64]; MSync] (NewDagModifier dated_file, astore))).
Definition two_blocks : node :=
  NProto v0prefix ([x08; x02; x18; x03; x20; x02; x20; x01] ++ mode) [make_link [] (NRaw rawprefix [x61; x62]); make_link [] (NRaw rawprefix [x63])].
Definition two_store : world := mkWorld (fun _ => true) [] 0 (fun _ => true) (fun _ => true).
Example C100_cases :
  match written with Ok k => negb (node_eqb k dated_file) | _ => false end = true /\
  kind dated_file = (v0prefix, Some (Ok (Some TFile, None, None, mode))) /\ kind two_blocks = kind dated_file /\ node_links two_blocks <> [] /\
  fst (mTruncate single 1 (NewDagModifier two_blocks, two_store)) = Ok tt /\
  match m_node (fst (snd (mTruncate single 1 (NewDagModifier two_blocks, two_store)))) with Some k => negb (node_eqb k two_blocks) | None => false end = true.
Proof. vm_compute. repeat split; discriminate. Qed.

(** The empty file node is what importing nothing gives, in both layouts, and is a file of
    no bytes with size 0. *)
Theorem C100_empty_balanced : forall fuel fi w root w', BuildDagFromReader fuel fi [] w = (Ok root, w') -> EmptyFileNode = Ok root.
Proof. exact empty_balanced. Qed.
Print Assumptions C100_empty_balanced.
Theorem C100_empty_trickle : forall fuel fi w root w', BuildTrickleDagFromReader fuel fi [] w = (Ok root, w') -> EmptyFileNode = Ok root.
Proof. exact empty_trickle. Qed.
Print Assumptions C100_empty_trickle.
Theorem C100_empty_file : exists n, EmptyFileNode = Ok n /\ file_dag n [[]] /\ recorded_size n 0.
Proof. exact empty_file. Qed.
Print Assumptions C100_empty_file.
Example C100_empty_runs : exists r1 w1 r2 w2, BuildDagFromReader 1 false [] astore = (Ok r1, w1) /\ BuildTrickleDagFromReader 2 false [] astore = (Ok r2, w2).
Proof. eexists _, _, _, _. split; vm_compute; reflexivity. Qed.

(** The empty directory node is the node of a new directory and loads as one. *)
Theorem C100_empty_dir : exists n d, EmptyDirNode = Ok n /\ NewDirectory None = Ok (DBasic d) /\ NewDirectoryFromNode n = Ok (DBasic d) /\
  NProto (b_prefix d) (b_data d) (b_links d) = n /\ b_links d = [].
Proof. exact empty_dir. Qed.
Print Assumptions C100_empty_dir.
