(** Properties C74, C75 and C23: nodes and modifiers that share links. *)
From Verif Require Import Base Pb FSNode Dag Builder Importer Reader Modifier SpecFile SpecAppend SpecReader SpecModifier Alias SpecAlias
  ReaderWitness AppendRun ModifierRun ModifierFacts AliasFacts.

(** C74: a node returned by GetNode stays what it is. False: it is a copy that shares
    its links with the node of the modifier, and modifyDag changes links in place. The
    node is returned with content "abcde"; then the file is cut to four bytes and
    its first byte is overwritten, and the node reads "Xbcde", which the file never
    was. *)
Theorem C74_snapshot_refuted : exists st1 rs1 st2 rs2 g,
  hrun bytewise wb (hstart full) [HGet abcde; HNew 0; HCall 0 MGetNode] rs1 st1 /\
  nth_error (h_held st1) 1 = Some g /\ file_content (shows (h_heap st1) g) [x61; x62; x63; x64; x65] /\
  hrun bytewise wb st1 [HCall 0 (MTruncate 4); HCall 0 (MWrite [x58]); HCall 0 MSync; HCall 0 MSize] rs2 st2 /\
  rs2 = [Ok BDone; Ok (BInt 1); Ok BDone; Ok (BInt 4)] /\
  file_content (shows (h_heap st2) g) [x58; x62; x63; x64; x65].
Proof. exact snapshot_refuted. Qed.
Print Assumptions C74_snapshot_refuted.
(** The same for the node given to NewDagModifier. That node knows its CID, which is
    then that of other links than it shows. *)
Theorem C74_argument_refuted : exists st1 rs1 st2 rs2 o,
  hrun bytewise wb (hstart full) [HGet abcde] rs1 st1 /\ nth_error (h_held st1) 0 = Some o /\
  shows (h_heap st1) o = abcde /\ obj_cid (h_heap st1) o = abcde /\
  hrun bytewise wb st1 [HNew 0; HCall 0 (MWrite [x58]); HCall 0 MSync] rs2 st2 /\
  rs2 = [Ok BDone; Ok (BInt 1); Ok BDone] /\
  file_content (shows (h_heap st2) o) [x58; x62; x63; x64; x65] /\ obj_cid (h_heap st2) o = abcde.
Proof. exact argument_refuted. Qed.
Print Assumptions C74_argument_refuted.

(** What stays, whatever is called later on whichever modifier: the data of the node,
    and number, names and recorded sizes of its links; only the targets change. *)
Theorem C74_frame_partial : forall split wbsize w cs rs st cs' rs' st' j o,
  hrun split wbsize (hstart w) cs rs st -> hrun split wbsize st cs' rs' st' -> nth_error (h_held st) j = Some o ->
  exists o', nth_error (h_held st') j = Some o' /\ same_frame (shows (h_heap st) o) (shows (h_heap st') o').
Proof. exact held_frame. Qed.
Print Assumptions C74_frame_partial.
(** With one modifier a node changes at most once: the first call that writes the
    buffer out cuts the modifier off from all nodes in hand before the call. *)
Theorem C74_frozen_partial : forall split wbsize w cs rs st m ps op x st1 cs' rs' st2 j o,
  hrun split wbsize (hstart w) cs rs st -> h_mods st = [(m, ps)] -> HasChanges m = true -> syncs op = true ->
  hstep split wbsize st (HCall 0 op) (Ok x) st1 -> hrun split wbsize st1 cs' rs' st2 -> no_new cs' ->
  nth_error (h_held st) j = Some o -> shows (h_heap st2) o = shows (h_heap st1) o.
Proof. exact held_frozen. Qed.
Print Assumptions C74_frozen_partial.
(** And calls that take no data in, with nothing in the buffer, change no node:
    Truncate, Seek (also past the end), Read, Size, Sync, GetNode. *)
Theorem C74_quiet_partial : forall split wbsize w cs rs st i m ps op r st1 j o,
  hrun split wbsize (hstart w) cs rs st -> nth_error (h_mods st) i = Some (m, ps) -> HasChanges m = false -> writes op = false ->
  hstep split wbsize st (HCall i op) r st1 -> nth_error (h_held st) j = Some o ->
  shows (h_heap st1) o = shows (h_heap st) o.
Proof. exact held_quiet. Qed.
Print Assumptions C74_quiet_partial.

(** The CID of a node in hand, once asked for, never changes, nor does that of a
    fetched node. *)
Theorem C74_cid_partial : forall split wbsize st j k st1 cs rs st2 k' st3,
  hstep split wbsize st (HCid j) (Ok (BNode k)) st1 -> hrun split wbsize st1 cs rs st2 ->
  hstep split wbsize st2 (HCid j) (Ok (BNode k')) st3 -> k' = k.
Proof. exact cid_fixed. Qed.
Print Assumptions C74_cid_partial.
Theorem C74_fetched_cid_partial : forall split wbsize st k n st1 cs rs st2 k' st3,
  hstep split wbsize st (HGet k) (Ok (BNode n)) st1 -> hrun split wbsize st1 cs rs st2 ->
  hstep split wbsize st2 (HCid (length (h_held st))) (Ok (BNode k')) st3 -> k' = k.
Proof. exact fetched_cid. Qed.
Print Assumptions C74_fetched_cid_partial.

Example C74_frozen_case : exists st rs m ps st1 g,
  hrun bytewise wb (hstart full) [HGet abcde; HNew 0; HCall 0 MGetNode; HCall 0 (MWrite [x58])] rs st /\ h_mods st = [(m, ps)] /\ HasChanges m = true /\
  syncs MSync = true /\ hstep bytewise wb st (HCall 0 MSync) (Ok BDone) st1 /\ nth_error (h_held st) 1 = Some g /\
  file_content (shows (h_heap st) g) [x61; x62; x63; x64; x65] /\ file_content (shows (h_heap st1) g) [x58; x62; x63; x64; x65].
Proof. exact frozen_case. Qed.
Example C74_quiet_case : exists st rs m ps st1 g,
  hrun bytewise wb (hstart full) [HGet abcde; HNew 0; HCall 0 MGetNode] rs st /\ nth_error (h_mods st) 0 = Some (m, ps) /\ HasChanges m = false /\
  writes (MRead 5) = false /\ hstep bytewise wb st (HCall 0 (MRead 5)) (Ok (BData [x61; x62; x63; x64; x65] None)) st1 /\
  nth_error (h_held st) 1 = Some g.
Proof. exact quiet_case. Qed.

Example C74_cid_case : exists st rs st1 rs1 st2 st3,
  hrun bytewise wb (hstart full) [HGet abcde; HNew 0; HCall 0 MGetNode] rs st /\ hstep bytewise wb st (HCid 1) (Ok (BNode abcde)) st1 /\
  hrun bytewise wb st1 [HCall 0 (MWrite [x58]); HCall 0 MSync] rs1 st2 /\ hstep bytewise wb st2 (HCid 1) (Ok (BNode abcde)) st3.
Proof. exact cid_case. Qed.

(** C75: modifiers made from the same node are independent. False: what is written to
    the first is read from the second, which alone would read "abcde". *)
Theorem C75_shared_refuted : exists st rs,
  hrun bytewise wb (hstart full) [HGet abcde; HNew 0; HNew 0; HCall 0 (MWrite [x58]); HCall 0 MSync; HCall 1 (MRead 5)] rs st /\
  rs = [Ok (BNode abcde); Ok BDone; Ok BDone; Ok (BInt 1); Ok BDone; Ok (BData [x58; x62; x63; x64; x65] None)] /\
  fst (mcall bytewise wb (MRead 5) (NewDagModifier abcde, h_world st)) = Ok (BData [x61; x62; x63; x64; x65] None).
Proof. exact two_modifiers_refuted. Qed.
Print Assumptions C75_shared_refuted.
(** It holds for modifiers made from nodes fetched one by one, also when they are of the same file:
    any interleaving of calls gives the results of modifiers that share only the DAG
    service, and every interleaving can be executed. *)
Theorem C75_separate_partial : forall split wbsize w ks rs0 st cs rs st',
  hrun split wbsize (hstart w) (opening 0 ks) rs0 st ->
  hrun split wbsize st (map (fun c => HCall (fst c) (snd c)) cs) rs st' ->
  apart_run split wbsize w (map NewDagModifier ks) cs = Some (rs, h_world st').
Proof. exact separate. Qed.
Print Assumptions C75_separate_partial.
Theorem C75_separate_total : forall split wbsize w ks rs0 st cs,
  hrun split wbsize (hstart w) (opening 0 ks) rs0 st -> (forall i op, In (i, op) cs -> (i < length ks)%nat) ->
  exists rs st', hrun split wbsize st (map (fun c => HCall (fst c) (snd c)) cs) rs st'.
Proof. exact separate_total. Qed.
Print Assumptions C75_separate_total.

Example C75_case : exists rs0 st,
  hrun bytewise wb (hstart full) (opening 0 [abcde; abcde]) rs0 st /\ exists rs w',
  apart_run bytewise wb full (map NewDagModifier [abcde; abcde]) [(0%nat, MWrite [x58]); (0%nat, MSync); (1%nat, MRead 5)] = Some (rs, w') /\
  rs = [Ok (BInt 1); Ok BDone; Ok (BData [x61; x62; x63; x64; x65] None)].
Proof. exact separate_case. Qed.

(** C23 with shared links: one modifier, made from a fetched node, is a file as long as
    the calls are allowed, although nodes in hand share links with it. Its cases are
    those of C23 (PropertiesModifier.v). *)
Theorem C23_shared_partial : forall split wbsize n c w ops rs0 st rs st',
  chunker_ok split -> file_content n c -> growable K n -> available w n -> can_add w -> serves w ->
  zlen c < 9223372036854775808 -> all_allowed (mkF c 0 false NoReader true) ops ->
  hrun split wbsize (hstart w) [HGet n; HNew 0] rs0 st -> hrun split wbsize st (map (HCall 0) ops) rs st' ->
  exists h, map (fun x => fst (fst x)) h = ops /\ map (fun x => Ok (snd (fst x))) h = rs /\ like_file (mkF c 0 false NoReader true) h.
Proof. exact modifier_is_file_shared. Qed.
Print Assumptions C23_shared_partial.

Example C23_shared_case : exists rs0 st rs st',
  hrun bytewise wb (hstart full) [HGet abcde; HNew 0] rs0 st /\
  hrun bytewise wb st (map (HCall 0) [MSeek 2 0; MWrite [x58]; MGetNode; MWrite [x59]; MGetNode; MSeek 0 0; MRead 9]) rs st' /\
  all_allowed (mkF [x61; x62; x63; x64; x65] 0 false NoReader true) [MSeek 2 0; MWrite [x58]; MGetNode; MWrite [x59]; MGetNode; MSeek 0 0; MRead 9].
Proof. exact shared_case. Qed.
