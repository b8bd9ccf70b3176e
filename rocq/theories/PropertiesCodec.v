(** Properties C01-C05, C46, C47: the UnixFS message codec and FSNode. *)
From Verif Require Import Base Pb PbProofs FSNode FSNodeProofs SpecCodec SpecCodecProofs SpecMeta MetaProofs.

(** C01: encode, then decode. *)
Theorem C01_roundtrip : forall d, go_data d -> unknown_bytes (d_unrec d) -> d_type d <> None ->
  exists b, GetBytes d = Ok b /\ FSNodeFromBytes b = Ok d.
Proof. exact roundtrip. Qed.
Print Assumptions C01_roundtrip.

Example C01_case :
  let d := mkData (Some 2) (Some [x61; x62]) (Some 18446744073709551615) [1; 300] (Some 34) None
             [x3a; x01; x7a] in
  go_data d /\ unknown_bytes (d_unrec d) /\ d_type d <> None.
Proof. exact roundtrip_case. Qed.

(** C02: whatever is accepted re-encodes to an equal message; otherwise an error
    is returned (never a panic). That unknown fields are kept is [C47_decode]. *)
Theorem C02_stable : forall b,
  (exists d b', FSNodeFromBytes b = Ok d /\ GetBytes d = Ok b' /\ FSNodeFromBytes b' = Ok d)
  \/ (exists e, FSNodeFromBytes b = Err e).
Proof. exact stable_total. Qed.
Print Assumptions C02_stable.

(** Out-of-order fields, a packed list, an overlong varint and an unknown group. *)
Example C02_case : exists d b',
  FSNodeFromBytes [x22; x02; x05; x06; x43; x08; x01; x44; x08; x82; x00] = Ok d /\
  d_blocksizes d = [5; 6] /\ d_type d = Some 2 /\ d_unrec d = [x43; x08; x01; x44] /\
  GetBytes d = Ok b' /\ FSNodeFromBytes b' = Ok d.
Proof. exact stable_case. Qed.

(** C03: constructors and accessors. *)
Theorem C03_wrap : forall b, uint64 (zlen (obytes b)) -> exists w, WrapData b = Ok w /\
  UnwrapData w = Ok (obytes b) /\ DataSize w = Ok (zlen (obytes b)).
Proof. exact wrap_spec. Qed.
Print Assumptions C03_wrap.

Theorem C03_file : forall b n, uint64 (zlen (obytes b)) -> uint64 n -> exists w, FilePBData b n = Ok w /\
  UnwrapData w = Ok (obytes b) /\ DataSize w = Ok n.
Proof. exact file_spec. Qed.
Print Assumptions C03_file.

Theorem C03_symlink : forall p, uint64 (zlen p) -> exists w, SymlinkData p = Ok w /\
  UnwrapData w = Ok p /\ DataSize w = Ok (zlen p).
Proof. exact symlink_spec. Qed.
Print Assumptions C03_symlink.

Theorem C03_folder : exists w, FolderPBData = Ok w /\ UnwrapData w = Ok [] /\
  DataSize w = Err EDirSize /\ exists d, FSNodeFromBytes w = Ok d /\ IsDir d = true.
Proof. exact folder_spec. Qed.
Print Assumptions C03_folder.

Theorem C03_shard : forall b f h, uint64 (zlen (obytes b)) -> uint64 f -> uint64 h ->
  exists w d, HAMTShardData b f h = Ok w /\ FSNodeFromBytes w = Ok d /\
  IsDir d = true /\ d_data d = b /\ getFanout d = f /\ getHashType d = h /\ DataSize w = Err EDirSize.
Proof. exact shard_spec. Qed.
Print Assumptions C03_shard.

Example C03_case : uint64 (zlen (obytes (Some [x61]))) /\ uint64 7 /\ uint64 (zlen (obytes None)).
Proof. exact constructors_case. Qed.

(** C04: sizes under every edit history ([spec_run] says what the history does to
    the data and the block size list; an out-of-range index panics). *)
Theorem C04_size_history : forall t ops, t = TFile \/ t = TRaw ->
  match spec_run ops with
  | None => fs_run t ops = Panic
  | Some (d, bs) => exists n, fs_run t ops = Ok n /\ getData n = d /\ d_blocksizes n = bs /\
      NumChildren n = zlen bs /\ FileSize n = (zlen d + total bs) mod 18446744073709551616
  end.
Proof. exact fs_run_spec. Qed.
Print Assumptions C04_size_history.

Example C04_case :
  spec_run [OpSetData (Some [x61; x62]); OpAddBlockSize 5; OpAddBlockSize 9; OpRemoveBlockSize 0] =
  Some ([x61; x62], [9]).
Proof. exact size_history_case. Qed.

(** C05: the mime type survives; the size is lost ([_refuted]). *)
Theorem C05_metadata_mime_partial : forall m, zlen (MimeType m) < 18446744073709551000 -> uint64 (MetaSize m) ->
  exists b m', BytesForMetadata m = Ok b /\ MetadataFromBytes b = Ok m' /\ MimeType m' = MimeType m.
Proof. exact metadata_partial. Qed.
Print Assumptions C05_metadata_mime_partial.

Theorem C05_metadata_refuted : exists m b m', uint64 (MetaSize m) /\
  BytesForMetadata m = Ok b /\ MetadataFromBytes b = Ok m' /\ m' <> m.
Proof. exact metadata_refuted. Qed.
Print Assumptions C05_metadata_refuted.

Example C05_case : zlen (MimeType (mkMetadata [x61] 3)) < 18446744073709551000.
Proof. exact metadata_case. Qed.

(** Decoding any well-formed metadata message: the last field 1 of wire type 2 is the mime
    type; other fields, also a field 1 of another wire type, are skipped. *)
Theorem C05_metadata_decode : forall fs b d gs m, is_message fs b -> fields_effect fs empty_data d -> d_type d = Some TMetadata ->
  is_message gs (getData d) -> mime_of gs [] m -> MetadataFromBytes b = Ok (mkMetadata m 0).
Proof. exact metadata_decode. Qed.
Print Assumptions C05_metadata_decode.

Example C05_decode_case :
  let gs := [mkField 1 2 [x01; x61]; mkField 1 0 [x05]; mkField 1 2 [x02; x62; x63]; mkField 9 0 [x07]] in
  let v := [x0a; x01; x61; x08; x05; x0a; x02; x62; x63; x48; x07] in
  let fs := [mkField 1 0 [x03]; mkField 2 2 (x0b :: v)] in
  let d := mkData (Some TMetadata) (Some v) None [] None None [] in
  is_message fs ([x08; x03; x12; x0b] ++ v) /\ fields_effect fs empty_data d /\ d_type d = Some TMetadata /\
  is_message gs (getData d) /\ mime_of gs [] [x62; x63].
Proof. exact metadata_decode_case. Qed.

(** Only nodes of type Metadata are accepted, and the size is never read back. *)
Theorem C05_metadata_only : forall b m, MetadataFromBytes b = Ok m ->
  exists d, FSNodeFromBytes b = Ok d /\ d_type d = Some TMetadata /\ MetaSize m = 0.
Proof. exact metadata_only. Qed.
Print Assumptions C05_metadata_only.


(** C46: the bytes are the canonical proto2 encoding of /repo/pb/unixfs.proto. *)
Theorem C46_canonical_encoding : forall d b, go_data d -> GetBytes d = Ok b -> canonical_bytes d b.
Proof. exact marshal_canonical. Qed.
Print Assumptions C46_canonical_encoding.

(** The canonical encoding determines the bytes. *)
Theorem C46_canonical_unique : forall d b b', go_data d -> canonical_bytes d b -> canonical_bytes d b' -> b = b'.
Proof. exact canonical_unique. Qed.
Print Assumptions C46_canonical_unique.

Example C46_case : let d := mkData (Some 2) (Some [x61]) (Some 300) [] None None [] in
  go_data d /\ GetBytes d = Ok [x08; x02; x12; x01; x61; x18; xac; x02].
Proof. exact canonical_case. Qed.

(** C47: the decoder gives every well-formed message, whatever the order,
    repetition and representation of its fields, its proto2 meaning. *)
Theorem C47_decode : forall fs b d, is_message fs b -> fields_effect fs empty_data d ->
  FSNodeFromBytes b = (match d_type d with Some _ => Ok d | None => Err ERequired end).
Proof. exact decode_spec. Qed.
Print Assumptions C47_decode.

Example C47_case :
  let fs := [mkField 4 2 [x02; x05; x06]; mkField 9 0 [x07]; mkField 1 0 [x82; x00]] in
  is_message fs [x22; x02; x05; x06; x48; x07; x08; x82; x00] /\
  fields_effect fs empty_data (mkData (Some 2) None None [5; 6] None None [x48; x07]).
Proof. exact decode_case. Qed.

(** The accessors of a decoded node give the last value that the message has for their
    field, zero or no bytes if it has none. *)
Theorem C47_accessors : forall fs b d, is_message fs b -> fields_effect fs empty_data d -> d_type d <> None -> exists n, FSNodeFromBytes b = Ok n /\
  (forall v, last_number 1 fs 0 v -> getType n = i32 v) /\ (forall v, last_bytes 2 fs [] v -> getData n = v) /\ (forall v, last_number 3 fs 0 v -> getFilesize n = v) /\
  (forall v, last_number 5 fs 0 v -> getHashType n = v) /\ (forall v, last_number 6 fs 0 v -> getFanout n = v).
Proof. exact accessors. Qed.
Print Assumptions C47_accessors.

Example C47_accessors_case :
  let fs := [mkField 6 0 [x08]; mkField 1 0 [x05]; mkField 3 2 [x00]; mkField 6 0 [x10]] in
  let b := [x30; x08; x08; x05; x1a; x00; x30; x10] in
  is_message fs b /\ fields_effect fs empty_data (mkData (Some 5) None None [] None (Some 16) [x1a; x00]) /\
  last_number 1 fs 0 5 /\ last_bytes 2 fs [] [] /\ last_number 3 fs 0 0 /\ last_number 5 fs 0 0 /\ last_number 6 fs 0 16.
Proof. exact accessors_case. Qed.
