(** Wire format of the UnixFS protobuf messages.

    /repo/pb/unixfs.proto:5-26 and the generated /repo/pb/unixfs.pb.go:85-219 only
    describe the messages; marshalling is done by the table driven runtime of
    github.com/gogo/protobuf v1.3.2 (not in /repo). The definitions below model
    that runtime for these two messages; each comment names the runtime function. *)
From Verif Require Import Base.

(** ** Varints *)

(** gogo [appendVarint]: base-128, least significant group first. [k] bounds the
    number of further bytes (10 bytes hold any uint64). *)
Fixpoint enc_varint (k : nat) (n : Z) : bytes :=
  match k with
  | O => [z2b n]
  | S k' => if n <? 128 then [z2b n]
            else z2b (n mod 128 + 128) :: enc_varint k' (n / 128)
  end.
Definition varint (n : Z) : bytes := enc_varint 9 n.

(** gogo [decodeVarint]: at most ten bytes, the tenth at most 1; [None] is the
    [(0,0)] failure result. [k] counts the bytes already consumed. *)
Fixpoint dec_varint (k : nat) (b : bytes) : option (Z * bytes) :=
  match b with
  | [] => None
  | x :: r =>
      let v := b2z x in
      match k with
      | O => if v <? 2 then Some (v, r) else None
      | S k' => if v <? 128 then Some (v, r)
                else match dec_varint k' r with
                     | Some (y, r') => Some (v - 128 + 128 * y, r')
                     | None => None
                     end
      end
  end.
Definition decode_varint (b : bytes) : option (Z * bytes) := dec_varint 9 b.

(** ** Skipping unknown fields *)

(** A length-delimited payload: [Some (payload, rest)].
    gogo [unmarshalBytesValue] / [skipField] case WireBytes. *)
Definition dec_bytes (b : bytes) : option (bytes * bytes) :=
  match decode_varint b with
  | None => None
  | Some (n, r) => if zlen r <? n then None else Some (ztake n r, zdrop n r)
  end.

(** Fixed size payload. gogo [skipField] cases WireFixed32/WireFixed64. *)
Definition skip_fixed (n : Z) (b : bytes) : option bytes :=
  if zlen b <? n then None else Some (zdrop n b).

(** gogo [findEndGroup]; [depth] is the number of groups still open minus one.
    Returns the bytes after the matching end-group tag. *)
Fixpoint find_end_group (fuel : nat) (depth : nat) (b : bytes) : option bytes :=
  match fuel with
  | O => None
  | S f =>
      match decode_varint b with
      | None => None
      | Some (x, r) =>
          let wire := x mod 8 in
          if wire =? 0 then
            match decode_varint r with
            | Some (_, r') => find_end_group f depth r' | None => None end
          else if wire =? 1 then
            match skip_fixed 8 r with
            | Some r' => find_end_group f depth r' | None => None end
          else if wire =? 2 then
            match dec_bytes r with
            | Some (_, r') => find_end_group f depth r' | None => None end
          else if wire =? 3 then find_end_group f (S depth) r
          else if wire =? 4 then
            match depth with O => Some r | S d => find_end_group f d r end
          else if wire =? 5 then
            match skip_fixed 4 r with
            | Some r' => find_end_group f depth r' | None => None end
          else None
      end
  end.

(** gogo [skipField]: returns the bytes after the field payload. *)
Definition skip_field (wire : Z) (b : bytes) : res bytes :=
  let opt o := match o with Some r => Ok r | None => Err EUnexpectedEOF end in
  if wire =? 0 then
    opt (match decode_varint b with Some (_, r) => Some r | None => None end)
  else if wire =? 1 then opt (skip_fixed 8 b)
  else if wire =? 2 then
    opt (match dec_bytes b with Some (_, r) => Some r | None => None end)
  else if wire =? 3 then opt (find_end_group (length b) 0 b)
  else if wire =? 5 then opt (skip_fixed 4 b)
  else Err EBadWire.

(** ** The generic decoder loop *)

(** Result of a field decoder: decoded, failed, or "bad wire type / no such
    field", which sends the field to the unrecognized bytes. *)
Inductive fres (S : Type) : Type :=
| FOk (s : S) (rest : bytes)
| FErr (e : err)
| FUnknown.
Arguments FOk {S} s rest.
Arguments FErr {S} e.
Arguments FUnknown {S}.

Section Loop.
  Context {S : Type}.
  Variable handle : S -> Z -> Z -> bytes -> fres S.
  Variable add_unrec : S -> bytes -> S.

  (** One iteration of the loop in gogo [unmarshalInfo.unmarshal]: read the tag,
      dispatch, or keep the raw bytes of an unknown field. *)
  Definition ustep (s : S) (b : bytes) : res (S * bytes) :=
    match decode_varint b with
    | None => Err EUnexpectedEOF
    | Some (x, b1) =>
        match handle s (x / 8) (x mod 8) b1 with
        | FOk s' b2 => Ok (s', b2)
        | FErr e => Err e
        | FUnknown =>
            match skip_field (x mod 8) b1 with
            | Ok b2 => Ok (add_unrec s (varint x ++ ztake (zlen b1 - zlen b2) b1), b2)
            | Err e => Err e
            | Panic => Panic
            | Fuel => Fuel
            end
        end
    end.

  (** gogo [unmarshalInfo.unmarshal]: [for len(b) > 0 { ... }]. *)
  Fixpoint uloop (fuel : nat) (s : S) (b : bytes) : res S :=
    match b with
    | [] => Ok s
    | _ :: _ =>
        match fuel with
        | O => Fuel
        | Datatypes.S f =>
            match ustep s b with
            | Ok (s', b') => uloop f s' b'
            | Err e => Err e
            | Panic => Panic
            | Fuel => Fuel
            end
        end
    end.
End Loop.

(** ** pb.Data *)

(** /repo/pb/unixfs.pb.go:86-96 (struct Data). A nil pointer / nil [Data] slice is
    [None]; nil and empty [Blocksizes] / [XXX_unrecognized] are not distinguished
    (they marshal alike and every accessor treats them alike). *)
Record pbdata : Type := mkData {
  d_type : option Z;
  d_data : option bytes;
  d_filesize : option Z;
  d_blocksizes : list Z;
  d_hashtype : option Z;
  d_fanout : option Z;
  d_unrec : bytes
}.
(** Zero value, [new(pb.Data)]. /repo/pb/unixfs.pb.go:86-96 *)
Definition empty_data : pbdata := mkData None None None [] None None [].

(** Field setters (Go assignments to the fields of struct Data,
    /repo/pb/unixfs.pb.go:87-92,94). *)
Definition set_type t d := mkData t (d_data d) (d_filesize d) (d_blocksizes d) (d_hashtype d) (d_fanout d) (d_unrec d).
Definition set_data x d := mkData (d_type d) x (d_filesize d) (d_blocksizes d) (d_hashtype d) (d_fanout d) (d_unrec d).
Definition set_filesize x d := mkData (d_type d) (d_data d) x (d_blocksizes d) (d_hashtype d) (d_fanout d) (d_unrec d).
Definition set_blocksizes x d := mkData (d_type d) (d_data d) (d_filesize d) x (d_hashtype d) (d_fanout d) (d_unrec d).
Definition set_hashtype x d := mkData (d_type d) (d_data d) (d_filesize d) (d_blocksizes d) x (d_fanout d) (d_unrec d).
Definition set_fanout x d := mkData (d_type d) (d_data d) (d_filesize d) (d_blocksizes d) (d_hashtype d) x (d_unrec d).
Definition set_unrec x d := mkData (d_type d) (d_data d) (d_filesize d) (d_blocksizes d) (d_hashtype d) (d_fanout d) x.

(** An optional varint field with tag byte [t] (gogo [appendVarintValue] for
    pointers: nothing for nil). *)
Definition enc_opt (t : Z) (o : option Z) : bytes :=
  match o with None => [] | Some v => varint t ++ varint v end.
(** An optional bytes field (gogo [appendBytes]: nothing for a nil slice). *)
Definition enc_optbytes (t : Z) (o : option bytes) : bytes :=
  match o with None => [] | Some v => varint t ++ varint (zlen v) ++ v end.
(** Repeated, not packed (proto2 default). gogo [appendVarintSlice]. *)
Definition enc_rep (t : Z) (l : list Z) : bytes :=
  flat_map (fun v => varint t ++ varint v) l.

(** gogo [proto.Marshal] on pb.Data: fields in tag order, int32 enum
    sign-extended to 64 bits, unrecognized bytes last, error if the required
    [Type] (/repo/pb/unixfs.proto:15) is missing. *)
Definition marshal_data (d : pbdata) : res bytes :=
  match d_type d with
  | None => Err ERequired
  | Some t =>
      Ok (varint 8 ++ varint (u64 t)
          ++ enc_optbytes 18 (d_data d)
          ++ enc_opt 24 (d_filesize d)
          ++ enc_rep 32 (d_blocksizes d)
          ++ enc_opt 40 (d_hashtype d)
          ++ enc_opt 48 (d_fanout d)
          ++ d_unrec d)
  end.

(** Packed varints. gogo [unmarshalUint64Slice], WireBytes branch. *)
Fixpoint dec_packed (fuel : nat) (b : bytes) : option (list Z) :=
  match b with
  | [] => Some []
  | _ :: _ =>
      match fuel with
      | O => None
      | S f => match decode_varint b with
               | None => None
               | Some (x, r) => match dec_packed f r with
                                | Some l => Some (x :: l) | None => None end
               end
      end
  end.

(** gogo [unmarshalInt32Value] etc.: a varint field stored through [set]. *)
Definition handle_varint {S} (s : Z -> S) (wire : Z) (b : bytes) : fres S :=
  if wire =? 0 then
    match decode_varint b with
    | None => FErr EUnexpectedEOF
    | Some (x, r) => FOk (s x) r
    end
  else FUnknown.

(** Dispatch on the field number for pb.Data (tags from
    /repo/pb/unixfs.proto:15-21). *)
Definition handle_data (d : pbdata) (tag wire : Z) (b : bytes) : fres pbdata :=
  if tag =? 1 then handle_varint (fun x => set_type (Some (i32 x)) d) wire b
  else if tag =? 2 then
    if wire =? 2 then
      match dec_bytes b with
      | None => FErr EUnexpectedEOF
      | Some (v, r) => FOk (set_data (Some v) d) r
      end
    else FUnknown
  else if tag =? 3 then handle_varint (fun x => set_filesize (Some x) d) wire b
  else if tag =? 4 then
    if wire =? 2 then
      match dec_bytes b with
      | None => FErr EUnexpectedEOF
      | Some (v, r) =>
          match dec_packed (length v) v with
          | None => FErr EUnexpectedEOF
          | Some l => FOk (set_blocksizes (d_blocksizes d ++ l) d) r
          end
      end
    else handle_varint (fun x => set_blocksizes (d_blocksizes d ++ [x]) d) wire b
  else if tag =? 5 then handle_varint (fun x => set_hashtype (Some x) d) wire b
  else if tag =? 6 then handle_varint (fun x => set_fanout (Some x) d) wire b
  else FUnknown.

(** Append to XXX_unrecognized (/repo/pb/unixfs.pb.go:94). *)
Definition add_unrec_data (d : pbdata) (u : bytes) : pbdata := set_unrec (d_unrec d ++ u) d.

(** gogo [proto.Unmarshal] into a fresh pb.Data; the required-field check comes
    after the loop. *)
Definition unmarshal_data (b : bytes) : res pbdata :=
  let? d := uloop handle_data add_unrec_data (length b) empty_data b in
  match d_type d with None => Err ERequired | Some _ => Ok d end.

(** ** pb.Metadata *)

(** /repo/pb/unixfs.pb.go:165-170 (struct Metadata). *)
Record pbmeta : Type := mkMeta { m_mime : option bytes; m_unrec : bytes }.
(** Zero value. /repo/pb/unixfs.pb.go:165-170 *)
Definition empty_meta : pbmeta := mkMeta None [].

(** gogo [proto.Marshal] on pb.Metadata (tag from /repo/pb/unixfs.proto:25). *)
Definition marshal_meta (m : pbmeta) : res bytes :=
  Ok (enc_optbytes 10 (m_mime m) ++ m_unrec m).

(** Dispatch for pb.Metadata (/repo/pb/unixfs.proto:25). *)
Definition handle_meta (m : pbmeta) (tag wire : Z) (b : bytes) : fres pbmeta :=
  if tag =? 1 then
    if wire =? 2 then
      match dec_bytes b with
      | None => FErr EUnexpectedEOF
      | Some (v, r) => FOk (mkMeta (Some v) (m_unrec m)) r
      end
    else FUnknown
  else FUnknown.

(** XXX_unrecognized of Metadata (/repo/pb/unixfs.pb.go:168). *)
Definition add_unrec_meta (m : pbmeta) (u : bytes) : pbmeta :=
  mkMeta (m_mime m) (m_unrec m ++ u).

(** gogo [proto.Unmarshal] into a fresh pb.Metadata (no required fields). *)
Definition unmarshal_meta (b : bytes) : res pbmeta :=
  uloop handle_meta add_unrec_meta (length b) empty_meta b.

Arguments varint : simpl never.
Arguments decode_varint : simpl never.
Arguments dec_bytes : simpl never.
Arguments skip_field : simpl never.
Arguments unmarshal_data : simpl never.
Arguments marshal_data : simpl never.
