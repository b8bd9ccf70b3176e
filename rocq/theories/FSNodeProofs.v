(** Lemmas about the UnixFS message functions. *)
From Verif Require Import Base Pb PbProofs FSNode.

Lemma must_marshal_ok d : d_type d <> None -> exists b, must_marshal d = Ok b /\ marshal_data d = Ok b.
Proof.
  intros H. unfold must_marshal, marshal_data. destruct (d_type d); [|congruence]. eauto.
Qed.

Ltac fok := repeat split; cbn; unfold in_u64, TRaw, TFile, TDirectory, TSymlink, THAMTShard, TMetadata in *;
  try lia; try constructor; auto.

Lemma WrapData_decode b : zlen (obytes b) < two64 -> exists w, WrapData b = Ok w /\
  unmarshal_data w = Ok (mkData (Some TRaw) b (Some (zlen (obytes b))) [] None None []).
Proof.
  intros H. unfold WrapData. rewrite u64_small by (pose proof (zlen_nonneg (obytes b)); lia).
  edestruct must_marshal_ok as (w & -> & Hw); [|exists w; split; [reflexivity|]]; [discriminate|].
  eapply unmarshal_marshal; [|exact Hw]. pose proof (zlen_nonneg (obytes b)).
  apply good_data_nounrec; [|reflexivity]. fok.
  destruct b; cbn in *; auto.
Qed.

Lemma FilePBData_decode b n : zlen (obytes b) < two64 -> in_u64 n -> exists w, FilePBData b n = Ok w /\
  unmarshal_data w = Ok (mkData (Some TFile) b (Some n) [] None None []).
Proof.
  intros H Hn. unfold FilePBData.
  edestruct must_marshal_ok as (w & -> & Hw); [|exists w; split; [reflexivity|]]; [discriminate|].
  eapply unmarshal_marshal; [|exact Hw].
  apply good_data_nounrec; [|reflexivity]. fok.
  destruct b; cbn in *; auto.
Qed.

Lemma SymlinkData_decode p : zlen p < two64 -> exists w, SymlinkData p = Ok w /\
  unmarshal_data w = Ok (mkData (Some TSymlink) (Some p) None [] None None []).
Proof.
  intros H. unfold SymlinkData, marshal_data at 1. cbn [d_type set_type]. eexists. split; [reflexivity|].
  eapply unmarshal_marshal; [|reflexivity].
  apply good_data_nounrec; [|reflexivity]. fok.
Qed.

Lemma HAMTShardData_decode b f h : zlen (obytes b) < two64 -> in_u64 f -> in_u64 h ->
  exists w, HAMTShardData b f h = Ok w /\
  unmarshal_data w = Ok (mkData (Some THAMTShard) b None [] (Some h) (Some f) []).
Proof.
  intros H Hf Hh. unfold HAMTShardData, marshal_data at 1. cbn [d_type set_type set_data set_fanout set_hashtype].
  eexists. split; [reflexivity|].
  eapply unmarshal_marshal; [|reflexivity].
  apply good_data_nounrec; [|reflexivity]. fok.
  destruct b; cbn in *; auto.
Qed.

Lemma FolderPBData_decode : exists w, FolderPBData = Ok w /\
  unmarshal_data w = Ok (mkData (Some TDirectory) None None [] None None []).
Proof.
  unfold FolderPBData.
  edestruct must_marshal_ok as (w & -> & Hw); [|exists w; split; [reflexivity|]]; [discriminate|].
  eapply unmarshal_marshal; [|exact Hw].
  apply good_data_nounrec; [|reflexivity]. fok.
Qed.

(** ** Size bookkeeping *)

Fixpoint zsum (l : list Z) : Z := match l with [] => 0 | x :: r => x + zsum r end.

Lemma zsum_app l m : zsum (l ++ m) = zsum l + zsum m.
Proof. induction l as [|x l IH]; cbn [app zsum]; [lia|]. rewrite IH. lia. Qed.

Lemma nth_error_split_zsum l i s : nth_error l (Z.to_nat i) = Some s -> 0 <= i ->
  zsum (ztake i l ++ zdrop (i + 1) l) = zsum l - s.
Proof.
  intros H Hi. apply nth_error_split in H as (l1 & l2 & -> & Hl).
  rewrite ztake_app_l, zdrop_app_r by (unfold zlen; lia).
  rewrite ztake_all by (unfold zlen; lia).
  replace (i + 1 - zlen l1) with 1 by (unfold zlen; lia).
  change (zdrop 1 (s :: l2)) with l2.
  rewrite !zsum_app. cbn [zsum]. lia.
Qed.

(** The size fields as integers, reduced modulo 2^64. *)
Definition size_inv (n : FSNode) : Prop :=
  getFilesize n = u64 (zlen (getData n) + zsum (d_blocksizes n)).

Lemma u64_i64 z : u64 (i64 z) = u64 z.
Proof. unfold u64, i64, two63, two64. lia. Qed.
Lemma u64_add_i64 a b : u64 (i64 a + b) = u64 (a + b).
Proof. unfold u64, i64, two63, two64. lia. Qed.
Lemma u64_add_r a b : u64 (a + i64 b) = u64 (a + b).
Proof. unfold u64, i64, two63, two64. lia. Qed.
Lemma u64_add_u a b : u64 (u64 a + b) = u64 (a + b).
Proof. unfold u64, two64. lia. Qed.

Lemma UpdateFilesize_eq diff n :
  UpdateFilesize diff n = set_filesize (Some (u64 (getFilesize n + diff))) n.
Proof. unfold UpdateFilesize. rewrite u64_i64, u64_add_i64. reflexivity. Qed.

Lemma size_inv_New t : size_inv (NewFSNode t).
Proof. reflexivity. Qed.

Lemma size_inv_AddBlockSize s n : size_inv n -> size_inv (AddBlockSize s n).
Proof.
  unfold size_inv, AddBlockSize. intros H. rewrite UpdateFilesize_eq.
  cbn [set_blocksizes set_filesize getFilesize getData d_filesize d_data d_blocksizes].
  fold (getData n). rewrite u64_add_r. rewrite H, u64_add_u, zsum_app. cbn [zsum].
  f_equal. unfold getData. cbn. lia.
Qed.

Lemma size_inv_SetData o n : size_inv n -> size_inv (SetData o n).
Proof.
  unfold size_inv, SetData. intros H. rewrite UpdateFilesize_eq.
  cbn [set_data set_filesize getFilesize getData d_filesize d_data d_blocksizes].
  rewrite u64_add_r, H, u64_add_u. f_equal. unfold getData. cbn.
  lia.
Qed.

Lemma size_inv_RemoveAll n : size_inv (RemoveAllBlockSizes n).
Proof.
  unfold size_inv, RemoveAllBlockSizes. cbn. unfold getData. cbn. f_equal. lia.
Qed.

Lemma size_inv_Remove i n n' : size_inv n -> RemoveBlockSize i n = Ok n' -> size_inv n'.
Proof.
  unfold size_inv, RemoveBlockSize. intros H.
  destruct ((i <? 0) || _) eqn:E; [discriminate|].
  destruct (nth_error (d_blocksizes n) (Z.to_nat i)) as [s|] eqn:En; [|discriminate].
  rewrite UpdateFilesize_eq. intros Hx; injection Hx as <-.
  cbn [set_blocksizes set_filesize getFilesize getData d_filesize d_data d_blocksizes].
  rewrite nth_error_split_zsum with (s := s) by (assumption || lia).
  rewrite u64_add_r, H, u64_add_u.
  replace (zlen (getData n) + zsum (d_blocksizes n) + - i64 s)
    with (- i64 s + (zlen (getData n) + zsum (d_blocksizes n))) by lia.
  unfold getData; cbn. generalize (zlen (obytes (d_data n))).
  intros z. generalize (zsum (d_blocksizes n)). intros y.
  unfold u64, i64, two63, two64. lia.
Qed.
