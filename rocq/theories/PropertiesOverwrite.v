(** Properties C88 and C89: the blocks that overwriting and truncating touch. *)
From Verif Require Import Base Pb FSNode Dag Builder Importer Reader Modifier SpecFile SpecAppend SpecReader SpecModifier
  AppendRun ReaderProofs2 ReaderRun ReaderWitness ModifierRun ModifierFacts SpecLocal SpecOverwrite OverwriteProofs CutProofs.

(** C88: writing inside a file ([write_back] is New, WriteAt, GetNode) needs only the blocks
    that have some of the bytes written. *)
Theorem C88_needed_blocks : forall split wbsize b off n c w,
  file_content n c -> zlen c < 9223372036854775808 -> 0 <= off -> off + zlen b <= zlen c -> can_add w -> serves w ->
  (forall lo hi m, block_at n lo hi m -> overlaps off (zlen b) lo hi -> dserv_get w m = Ok m) ->
  exists n' s', write_back split wbsize b off n w = (Ok n', s').
Proof. exact overwrite_needs. Qed.
Print Assumptions C88_needed_blocks.
(** These it does need; all other blocks stay in their places. *)
Theorem C88_other_blocks_stay : forall split wbsize b off n c w n' s',
  file_content n c -> zlen c < 9223372036854775808 -> 0 <= off -> off + zlen b <= zlen c -> write_back split wbsize b off n w = (Ok n', s') ->
  forall lo hi m, block_at n lo hi m -> if_overlaps off (zlen b) lo hi (dserv_get (snd s') m = Ok m) (block_at n' lo hi m).
Proof. exact overwrite_kept. Qed.
Print Assumptions C88_other_blocks_stay.
(** Besides the root, only blocks with some of the bytes are written. *)
Theorem C88_blocks_written : forall split wbsize b off n c w n' s',
  file_content n c -> zlen c < 9223372036854775808 -> 0 <= off -> off + zlen b <= zlen c -> write_back split wbsize b off n w = (Ok n', s') ->
  exists a, w_added (snd s') = w_added w ++ a /\ forall m o, In (m, o) a -> m = n' \/ exists lo hi, block_at n' lo hi m /\ overlaps off (zlen b) lo hi.
Proof. exact overwrite_written. Qed.
Print Assumptions C88_blocks_written.

(** "de" is missing and the "b" is overwritten. *)
Example C88_case : file_content abcde [x61; x62; x63; x64; x65] /\ can_add missing_de /\ serves missing_de /\
  block_at abcde 3 5 leaf_de /\ ~ overlaps 1 1 3 5 /\ dserv_get missing_de leaf_de <> Ok leaf_de /\
  exists s', write_back bytewise wb [x58] 1 abcde missing_de =
    (Ok (NProto pbp [x08; x02; x18; x05; x20; x03; x20; x02] [nolink (NRaw rawp [x61; x58; x63]); nolink leaf_de]), s') /\
    map fst (w_added (snd s')) = [NRaw rawp [x61; x58; x63]; NProto pbp [x08; x02; x18; x05; x20; x03; x20; x02] [nolink (NRaw rawp [x61; x58; x63]); nolink leaf_de]].
Proof.
  split; [exact abcde_content|]. split; [intros i; reflexivity|]. split; [intros i; reflexivity|]. split.
  { apply (ba_child abcde [nolink leaf_abc] (nolink leaf_de) [] [[x61; x62; x63]] [x64; x65]); [reflexivity| |]; repeat constructor. }
  split; [unfold overlaps; lia|]. split; [vm_compute; discriminate|]. eexists. split; vm_compute; reflexivity.
Qed.

(** C89: cutting a file ([truncate_to] is New, Truncate, GetNode) works exactly if the blocks
    in [cut_needs] are there. *)
Theorem C89_needed_blocks_partial : forall split size n c w,
  file_content n c -> zlen c < 9223372036854775808 -> 0 <= size < zlen c -> can_add w ->
  ((exists n' s', truncate_to split size n w = (Ok n', s')) <-> (forall m, cut_needs n size m -> dserv_get w m = Ok m)).
Proof. exact truncate_needs. Qed.
Print Assumptions C89_needed_blocks_partial.
(** No block behind the cut is among them. *)
Theorem C89_nothing_behind : forall n s m, cut_needs n s m -> forall d, tree_bytes n d -> exists lo hi, block_at n lo hi m /\ lo <= s.
Proof. exact cut_block. Qed.
Print Assumptions C89_nothing_behind.
(** But blocks that stay as they are can be: the claim that the blocks which hold the first
    byte cut off suffice is false. "abcde" is cut to "abcd" while "abc" is missing. *)
Theorem C89_only_the_cut_refuted : exists split size n c w,
  file_content n c /\ zlen c < 9223372036854775808 /\ 0 <= size < zlen c /\ can_add w /\ serves w /\
  (forall lo hi m, block_at n lo hi m -> lo <= size < hi -> dserv_get w m = Ok m) /\
  fst (truncate_to split size n w) = Err EFetch.
Proof.
  exists bytewise, 4, abcde, [x61; x62; x63; x64; x65], (mkWorld (fun n => negb (node_eqb n leaf_abc)) [] 0 (fun _ => true) (fun _ => true)).
  split; [exact abcde_content|]. split; [reflexivity|]. split; [vm_compute; intuition congruence|]. split; [intros i; reflexivity|]. split; [intros i; reflexivity|]. split; [|vm_compute; reflexivity].
  assert (T1 : tree_bytes (lto (nolink leaf_abc)) [x61; x62; x63]) by repeat constructor. assert (T2 : tree_bytes (lto (nolink leaf_de)) [x64; x65]) by repeat constructor.
  intros lo hi m B Hs. destruct (block_cons _ _ [x61; x62; x63] _ _ _ T1 (block_bl _ _ _ _ B)) as [(-> & -> & ->)|[B'|B']].
  - change (zlen [x61; x62; x63]) with 3 in Hs. lia.
  - elim (block_nil lo hi m). now apply (block_bl leaf_abc).
  - destruct (block_cons _ _ [x64; x65] _ _ _ T2 B') as [(_ & _ & ->)|[B2|B2]]; [reflexivity| |].
    + eelim block_nil. apply (block_bl leaf_de). exact B2.
    + eelim block_nil. exact B2.
Qed.
Print Assumptions C89_only_the_cut_refuted.
(** What ends at the cut or before stays in its place. *)
Theorem C89_blocks_before_stay : forall split size n c w n' s',
  file_content n c -> zlen c < 9223372036854775808 -> 0 <= size < zlen c -> truncate_to split size n w = (Ok n', s') ->
  forall lo hi m, block_at n lo hi m -> hi <= size -> block_at n' lo hi m.
Proof. exact truncate_kept. Qed.
Print Assumptions C89_blocks_before_stay.
(** Besides the root, only blocks that end at the new end are written. *)
Theorem C89_blocks_written : forall split size n c w n' s',
  file_content n c -> zlen c < 9223372036854775808 -> 0 <= size < zlen c -> truncate_to split size n w = (Ok n', s') ->
  exists a, w_added (snd s') = w_added w ++ a /\ forall m o, In (m, o) a -> m = n' \/ exists lo, block_at n' lo size m.
Proof. exact truncate_written. Qed.
Print Assumptions C89_blocks_written.

(** "de" is missing and "abcde" is cut to "ab". *)
Example C89_case : file_content abcde [x61; x62; x63; x64; x65] /\ can_add missing_de /\ cut_needs abcde 2 leaf_abc /\ dserv_get missing_de leaf_de <> Ok leaf_de /\
  got (truncate_to bytewise 2 abcde missing_de) = Some [x61; x62] /\
  cut_needs abcde 4 leaf_abc /\ cut_needs abcde 4 leaf_de /\ block_at abcde 0 3 leaf_abc.
Proof.
  split; [exact abcde_content|]. split; [intros i; reflexivity|]. split.
  { apply (cn_child abcde 2 [] (nolink leaf_abc) [nolink leaf_de] []); [reflexivity|constructor|vm_compute; discriminate]. }
  split; [vm_compute; discriminate|]. split; [vm_compute; reflexivity|]. split; [|split].
  - apply (cn_child abcde 4 [] (nolink leaf_abc) [nolink leaf_de] []); [reflexivity|constructor|vm_compute; discriminate].
  - apply (cn_child abcde 4 [nolink leaf_abc] (nolink leaf_de) [] [[x61; x62; x63]]); [reflexivity|repeat constructor|vm_compute; discriminate].
  - apply (ba_child abcde [] (nolink leaf_abc) [nolink leaf_de] [] [x61; x62; x63]); [reflexivity|constructor|repeat constructor].
Qed.
