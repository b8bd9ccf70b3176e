(** Small DAGs used as witnesses and examples for the reader properties. *)
From Verif Require Import Base Pb FSNode Dag SpecFile Reader SpecReader ReaderRun ReaderProofs ReaderProofs2 Importer ImportProofs Builder.

Definition rawp : prefix := rawprefix.
Definition pbp : prefix := resolve v0prefix.
Definition leaf_abc : node := NRaw rawp [x61; x62; x63].
Definition leaf_de : node := NRaw rawp [x64; x65].
Definition nolink (n : node) : link := mkLink [] (node_size n) n.

(** File "abcde" with leaves "abc" and "de". *)
Definition abcde : node := NProto pbp [x08; x02; x18; x05; x20; x03; x20; x02] [nolink leaf_abc; nolink leaf_de].
(** The same with an inner node without block sizes above "de". *)
Definition abcde_nosizes : node :=
  NProto pbp [x08; x02; x18; x05; x20; x03; x20; x02]
    [nolink leaf_abc; nolink (NProto pbp [x08; x02; x18; x02] [nolink leaf_de])].
(** A first leaf that cannot be decoded. *)
Definition bad_leaf : node := NProto pbp [xff] [].
Definition bad_de : node := NProto pbp [x08; x02; x18; x05; x20; x03; x20; x02] [nolink bad_leaf; nolink leaf_de].
(** Metadata around a file; a directory. *)
Definition meta_abcde : node := NProto pbp [x08; x03] [nolink abcde].
Definition a_dir : node := NProto pbp [x08; x01] [].

Definition full : world := mkWorld (fun _ => true) [] 0 (fun _ => true) (fun _ => true).
(** "de" is missing. *)
Definition missing_de : world := mkWorld (fun n => negb (node_eqb n leaf_de)) [] 0 (fun _ => true) (fun _ => true).

(** A destination that takes two bytes and then fails. *)
Definition two_bytes : writer := fun rcv b => (2 - length rcv, true)%nat.

Lemma abcde_content : file_content abcde [x61; x62; x63; x64; x65].
Proof.
  exists [[x61; x62; x63]; [x64; x65]]. split; [|reflexivity].
  change [[x61; x62; x63]; [x64; x65]] with (concat [[[x61; x62; x63]]; [[x64; x65]]]).
  eapply fd_node with (fs := mkData (Some 2) None (Some 5) [3; 2] None None []); try (vm_compute; reflexivity).
  - discriminate.
  - repeat constructor.
  - now left.
  - cbn [map lto nolink]. repeat constructor.
Qed.

Lemma abcde_tree : tree_bytes abcde [x61; x62; x63; x64; x65].
Proof. destruct abcde_content as (cs & H & ->). now apply file_dag_tree. Qed.

Lemma nosizes_tree : tree_bytes abcde_nosizes [x61; x62; x63; x64; x65].
Proof.
  change [x61; x62; x63; x64; x65] with (concat [[x61; x62; x63]; concat [[x64; x65]]]).
  apply tb_node; [discriminate|]. cbn [map lto nolink node_links abcde_nosizes].
  constructor; [apply tb_leaf; constructor|]. constructor; [|constructor].
  apply tb_node; [discriminate|]. cbn. constructor; [apply tb_leaf; constructor|constructor].
Qed.

Lemma full_below n : below_available full n.
Proof. intros l m _ _. reflexivity. Qed.

Lemma failed_seek_refuted : exists w root content r e r1 r2 n,
  file_content root content /\ NewDagReader w root = Ok r /\
  Seek w 4 0 r = (n, Err e, r1) /\ Seek w 0 0 r1 = (0, Ok tt, r2) /\
  fst (CtxReadFull w 3 r) = (read_at content 0 3, Ok tt) /\
  fst (CtxReadFull w 3 r2) = ([], Err EFetch).
Proof.
  exists missing_de, abcde, [x61; x62; x63; x64; x65]. eexists _, _, _, _, _.
  split; [exact abcde_content|]. split; [vm_compute; reflexivity|]. split; [vm_compute; reflexivity|].
  split; [vm_compute; reflexivity|]. split; vm_compute; reflexivity.
Qed.

Lemma failed_seek_data_refuted : exists w root content r e r1 r2 n b,
  tree_bytes root content /\ below_available w root /\ NewDagReader w root = Ok r /\
  Seek w 4 0 r = (n, Err e, r1) /\ Seek w 0 0 r1 = (0, Ok tt, r2) /\
  fst (CtxReadFull w 2 r2) = (b, Ok tt) /\ b <> read_at content 0 2.
Proof.
  exists full, abcde_nosizes, [x61; x62; x63; x64; x65]. eexists _, _, _, _, _, _.
  split; [exact nosizes_tree|]. split; [apply full_below|]. split; [vm_compute; reflexivity|]. split; [vm_compute; reflexivity|].
  split; [vm_compute; reflexivity|]. split; [vm_compute; reflexivity|]. vm_compute. discriminate.
Qed.

(** After the failure the reader reports position 0 and a seek there does nothing,
    but two bytes have been consumed. *)
Lemma write_position_refuted : exists w root content r wr m r1 r2 b,
  file_content root content /\ below_available w root /\ NewDagReader w root = Ok r /\
  WriteTo w wr r = (m, Err EWrite, r1) /\ zlen m = 2 /\
  Seek w 0 1 r1 = (0, Ok tt, r1) /\ Seek w 0 0 r1 = (0, Ok tt, r2) /\
  fst (CtxReadFull w 3 r2) = (b, Ok tt) /\ b = read_at content 2 3 /\ b <> read_at content 0 3.
Proof.
  exists full, abcde, [x61; x62; x63; x64; x65]. eexists _, two_bytes, _, _, _, _.
  split; [exact abcde_content|]. split; [apply full_below|]. split; [vm_compute; reflexivity|]. split; [vm_compute; reflexivity|].
  split; [reflexivity|]. split; [vm_compute; reflexivity|]. split; [vm_compute; reflexivity|]. split; [vm_compute; reflexivity|].
  split; [reflexivity|]. vm_compute. discriminate.
Qed.

(** Reading again after an undecodable leaf silently skips it. *)
Lemma skip_refuted : exists w root r e r1 r2 b,
  below_available w root /\ NewDagReader w root = Ok r /\ Size r = 5 /\
  CtxReadFull w 3 r = ([], Err e, r1) /\ CtxReadFull w 2 r1 = (b, Ok tt, r2) /\
  b = [x64; x65] /\ Seek w 0 1 r2 = (2, Ok tt, r2).
Proof.
  exists full, bad_de. eexists _, _, _, _, _. split; [apply full_below|].
  split; [vm_compute; reflexivity|]. split; [vm_compute; reflexivity|]. split; [vm_compute; reflexivity|].
  split; [vm_compute; reflexivity|]. split; reflexivity.
Qed.

(** ** Reading back an import *)

Lemma import_read w' root content ops : file_content root content -> (forall m, reach root m -> stored w' m = true) ->
  (forall m, w_getok w' m = true) -> zlen content < 9223372036854775808 -> Forall op_ok ops ->
  exists r t r' pos', NewDagReader w' root = Ok r /\ Size r = zlen content /\
    reader_run (map (fun op => (w', op)) ops) r = Some (t, r') /\ map fst t = ops /\ file_run content 0 t pos'.
Proof.
  intros Hf Hs Hg Hl HF. apply open_file; auto. intros l m Hl' Hm. unfold dserv_get. rewrite Hg, Hs; [reflexivity|].
  econstructor; eassumption.
Qed.

Lemma balanced_read fuel dbp fi spl w root w' ops :
  balanced_import fuel dbp fi spl w = (Ok root, w') -> (forall m, w_getok w' m = true) -> Forall op_ok ops ->
  exists chunks, spl = map EvData chunks /\
   (zlen (concat chunks) < 9223372036854775808 ->
    exists r t r' pos', NewDagReader w' root = Ok r /\ Size r = zlen (concat chunks) /\
    reader_run (map (fun op => (w', op)) ops) r = Some (t, r') /\ map fst t = ops /\ file_run (concat chunks) 0 t pos').
Proof.
  intros H Hg HF. destruct (balanced_content _ _ _ _ _ _ _ H) as (chunks & E & Hc & _).
  exists chunks. split; [exact E|]. intros Hl. apply import_read; auto.
  exact (balanced_stored _ _ _ _ _ _ _ H).
Qed.

Lemma trickle_read fuel dbp fi spl w root w' ops :
  1 <= pr_maxlinks dbp -> (length spl < fuel)%nat ->
  trickle_import fuel dbp fi spl w = (Ok root, w') -> (forall m, w_getok w' m = true) -> Forall op_ok ops ->
  exists chunks, spl = map EvData chunks /\
   (zlen (concat chunks) < 9223372036854775808 ->
    exists r t r' pos', NewDagReader w' root = Ok r /\ Size r = zlen (concat chunks) /\
    reader_run (map (fun op => (w', op)) ops) r = Some (t, r') /\ map fst t = ops /\ file_run (concat chunks) 0 t pos').
Proof.
  intros Hk Hfu H Hg HF. destruct (trickle_content _ _ _ _ _ _ _ Hk Hfu H) as (chunks & E & Hc & _).
  exists chunks. split; [exact E|]. intros Hl. apply import_read; auto.
  exact (trickle_stored _ _ _ _ _ _ _ Hk Hfu H).
Qed.
