(** Model of /repo/unixfs.go (functions on UnixFS messages). *)
From Verif Require Import Base Pb.

(** Node types. /repo/unixfs.go:27-40, /repo/pb/unixfs.pb.go:27-40 *)
Definition TRaw : Z := 0.
Definition TDirectory : Z := 1.
Definition TFile : Z := 2.
Definition TMetadata : Z := 3.
Definition TSymlink : Z := 4.
Definition THAMTShard : Z := 5.

(** Getters of pb.Data. /repo/pb/unixfs.pb.go:122-162 *)
Definition getType (d : pbdata) : Z := match d_type d with Some t => t | None => TRaw end.
(** A nil slice and an empty slice both read as the empty list; use [d_data] where
    the difference matters. /repo/pb/unixfs.pb.go:129-134 *)
Definition getData (d : pbdata) : bytes := obytes (d_data d).
Definition getFilesize (d : pbdata) : Z := match d_filesize d with Some v => v | None => 0 end.
Definition getHashType (d : pbdata) : Z := match d_hashtype d with Some v => v | None => 0 end.
Definition getFanout (d : pbdata) : Z := match d_fanout d with Some v => v | None => 0 end.

(** panic(err) when marshalling fails. /repo/unixfs.go:74-83 (same shape at 94-98, 112-116) *)
Definition must_marshal (d : pbdata) : res bytes :=
  match marshal_data d with Ok b => Ok b | _ => Panic end.

(** /repo/unixfs.go:54-61 *)
Definition FromBytes (b : bytes) : res pbdata := unmarshal_data b.

(** /repo/unixfs.go:67-84. [data] is an option because a nil slice is not emitted. *)
Definition FilePBData (data : option bytes) (totalsize : Z) : res bytes :=
  must_marshal (set_filesize (Some totalsize) (set_data data (set_type (Some TFile) empty_data))).

(** /repo/unixfs.go:89-100 *)
Definition FolderPBData : res bytes := must_marshal (set_type (Some TDirectory) empty_data).

(** /repo/unixfs.go:105-119 *)
Definition WrapData (b : option bytes) : res bytes :=
  must_marshal (set_filesize (Some (u64 (zlen (obytes b))))
    (set_type (Some TRaw) (set_data b empty_data))).

(** /repo/unixfs.go:124-136; [[]byte(path)] is never nil. *)
Definition SymlinkData (path : bytes) : res bytes :=
  marshal_data (set_type (Some TSymlink) (set_data (Some path) empty_data)).

(** /repo/unixfs.go:141-155 *)
Definition HAMTShardData (data : option bytes) (fanout hashType : Z) : res bytes :=
  marshal_data (set_fanout (Some fanout) (set_data data (set_hashtype (Some hashType)
    (set_type (Some THAMTShard) empty_data)))).

(** /repo/unixfs.go:160-167 *)
Definition UnwrapData (b : bytes) : res bytes := rmap getData (unmarshal_data b).

(** /repo/unixfs.go:184-195 *)
Definition size (d : pbdata) : res Z :=
  let t := getType d in
  if (t =? TDirectory) || (t =? THAMTShard) then Err EDirSize
  else if (t =? TFile) || (t =? TRaw) then Ok (getFilesize d)
  else if t =? TSymlink then Ok (u64 (zlen (getData d)))
  else Err EUnrecData.

(** /repo/unixfs.go:175-182 *)
Definition DataSize (b : bytes) : res Z := let? d := unmarshal_data b in size d.

(** ** FSNode (a pb.Data). /repo/unixfs.go:204-208 *)
Definition FSNode := pbdata.

(** /repo/unixfs.go:213-221 *)
Definition FSNodeFromBytes (b : bytes) : res FSNode := unmarshal_data b.

(** /repo/unixfs.go:319-322 *)
Definition UpdateFilesize (diff : Z) (n : FSNode) : FSNode :=
  set_filesize (Some (u64 (i64 (i64 (getFilesize n) + diff)))) n.

(** /repo/unixfs.go:237-245 *)
Definition NewFSNode (t : Z) : FSNode := UpdateFilesize 0 (set_type (Some t) empty_data).

(** /repo/unixfs.go:258-261 *)
Definition AddBlockSize (s : Z) (n : FSNode) : FSNode :=
  let n' := UpdateFilesize (i64 s) n in
  set_blocksizes (d_blocksizes n' ++ [s]) n'.

(** /repo/unixfs.go:264-267; out of range index panics. *)
Definition RemoveBlockSize (i : Z) (n : FSNode) : res FSNode :=
  if (i <? 0) || (zlen (d_blocksizes n) <=? i) then Panic else
  match nth_error (d_blocksizes n) (Z.to_nat i) with
  | None => Panic
  | Some s =>
      let n' := UpdateFilesize (i64 (- i64 s)) n in
      Ok (set_blocksizes (ztake i (d_blocksizes n') ++ zdrop (i + 1) (d_blocksizes n')) n')
  end.

(** /repo/unixfs.go:271-273; out of range index panics. *)
Definition BlockSize (i : Z) (n : FSNode) : res Z :=
  if i <? 0 then Panic else
  match nth_error (d_blocksizes n) (Z.to_nat i) with Some s => Ok s | None => Panic end.

(** /repo/unixfs.go:281-284 *)
Definition RemoveAllBlockSizes (n : FSNode) : FSNode :=
  set_filesize (Some (u64 (zlen (getData n)))) (set_blocksizes [] n).

(** /repo/unixfs.go:287-289 *)
Definition GetBytes (n : FSNode) : res bytes := marshal_data n.

(** /repo/unixfs.go:292-297: the error is dropped, its size result is 0. *)
Definition FileSize (n : FSNode) : Z := match size n with Ok s => s | _ => 0 end.

(** /repo/unixfs.go:300-302 *)
Definition NumChildren (n : FSNode) : Z := zlen (d_blocksizes n).

(** /repo/unixfs.go:311-314 *)
Definition SetData (new : option bytes) (n : FSNode) : FSNode :=
  set_data new (UpdateFilesize (i64 (zlen (obytes new) - zlen (getData n))) n).

(** /repo/unixfs.go:330-337 *)
Definition IsDir (n : FSNode) : bool :=
  (getType n =? TDirectory) || (getType n =? THAMTShard).

(** ** Metadata *)

(** /repo/unixfs.go:342-345 *)
Record Metadata := mkMetadata { MimeType : bytes; MetaSize : Z }.

(** /repo/unixfs.go:372-376 *)
Definition MetadataBytes (m : Metadata) : res bytes := marshal_meta (mkMeta (Some (MimeType m)) []).

(** /repo/unixfs.go:351-369 *)
Definition MetadataFromBytes (b : bytes) : res Metadata :=
  let? d := unmarshal_data b in
  if getType d =? TMetadata then
    let? pbm := unmarshal_meta (getData d) in
    Ok (mkMetadata (obytes (m_mime pbm)) 0)
  else Err ENotMetadata.

(** /repo/unixfs.go:383-395 *)
Definition BytesForMetadata (m : Metadata) : res bytes :=
  let? mdd := MetadataBytes m in
  marshal_data (set_data (Some mdd) (set_type (Some TMetadata)
    (set_filesize (Some (MetaSize m)) empty_data))).
