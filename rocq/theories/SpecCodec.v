(** Specifications for the message codec, independent of the codec model: what
    the protobuf wire format and /repo/pb/unixfs.proto prescribe. *)
From Verif Require Import Base Pb FSNode.

(** ** Wire format *)

(** [is_varint v bs]: [bs] is a base-128 representation of [v], least significant
    group first, high bit set on all bytes but the last. *)
Inductive is_varint : Z -> bytes -> Prop :=
| iv_last b : b2z b < 128 -> is_varint (b2z b) [b]
| iv_more b v bs : 128 <= b2z b -> is_varint v bs -> is_varint (b2z b - 128 + 128 * v) (b :: bs).

(** A representation a decoder of 64-bit values must accept. *)
Definition varint64 (v : Z) (bs : bytes) : Prop :=
  is_varint v bs /\ (length bs <= 10)%nat /\ v < 18446744073709551616.

(** The unique shortest representation. *)
Inductive min_varint : Z -> bytes -> Prop :=
| mv_last b : b2z b < 128 -> min_varint (b2z b) [b]
| mv_more b v bs : 128 <= b2z b -> 0 < v -> min_varint v bs -> min_varint (b2z b - 128 + 128 * v) (b :: bs).

(** One field on the wire: number, wire type and payload bytes. *)
Record wfield := mkField { f_num : Z; f_wire : Z; f_payload : bytes }.

(** Payload shapes (groups are left to the stability theorem). *)
Inductive payload_ok : Z -> bytes -> Prop :=
| po_varint v p : varint64 v p -> payload_ok 0 p
| po_fixed64 p : length p = 8%nat -> payload_ok 1 p
| po_bytes l v : varint64 (zlen v) l -> payload_ok 2 (l ++ v)
| po_fixed32 p : length p = 4%nat -> payload_ok 5 p.

(** A message: the concatenation of its fields, each with any accepted
    representation of its tag. *)
Inductive is_message : list wfield -> bytes -> Prop :=
| im_nil : is_message [] []
| im_cons f fs t bs :
    0 <= f_num f -> varint64 (f_num f * 8 + f_wire f) t -> payload_ok (f_wire f) (f_payload f) ->
    is_message fs bs -> is_message (f :: fs) (t ++ f_payload f ++ bs).

(** Same with shortest tags and lengths: the canonical encoding. *)
Inductive min_payload : Z -> bytes -> Prop :=
| mp_varint v p : min_varint v p -> min_payload 0 p
| mp_bytes l v : min_varint (zlen v) l -> min_payload 2 (l ++ v).
Inductive min_message : list wfield -> bytes -> Prop :=
| mm_nil : min_message [] []
| mm_cons f fs t bs :
    min_varint (f_num f * 8 + f_wire f) t -> min_payload (f_wire f) (f_payload f) ->
    min_message fs bs -> min_message (f :: fs) (t ++ f_payload f ++ bs).

(** ** Meaning of a field of message Data (/repo/pb/unixfs.proto:5-22) *)

(** A list of varints written one after the other. *)
Inductive packed : list Z -> bytes -> Prop :=
| pk_nil : packed [] []
| pk_cons v vs p bs : varint64 v p -> packed vs bs -> packed (v :: vs) (p ++ bs).

(** [field_effect f d d']: reading field [f] turns the message [d] into [d']. Later occurrences of a
    scalar replace earlier ones, block sizes accumulate, anything else is kept
    among the unrecognized bytes (with its tag in shortest form). *)
Inductive field_effect : wfield -> pbdata -> pbdata -> Prop :=
| fe_type p v t d fs bs h f u : varint64 v p ->
    field_effect (mkField 1 0 p) (mkData t d fs bs h f u) (mkData (Some (i32 v)) d fs bs h f u)
| fe_data l v t d fs bs h f u : varint64 (zlen v) l ->
    field_effect (mkField 2 2 (l ++ v)) (mkData t d fs bs h f u) (mkData t (Some v) fs bs h f u)
| fe_filesize p v t d fs bs h f u : varint64 v p ->
    field_effect (mkField 3 0 p) (mkData t d fs bs h f u) (mkData t d (Some v) bs h f u)
| fe_blocksize p v t d fs bs h f u : varint64 v p ->
    field_effect (mkField 4 0 p) (mkData t d fs bs h f u) (mkData t d fs (bs ++ [v]) h f u)
| fe_packed l p vs t d fs bs h f u : varint64 (zlen p) l -> packed vs p ->
    field_effect (mkField 4 2 (l ++ p)) (mkData t d fs bs h f u) (mkData t d fs (bs ++ vs) h f u)
| fe_hashtype p v t d fs bs h f u : varint64 v p ->
    field_effect (mkField 5 0 p) (mkData t d fs bs h f u) (mkData t d fs bs (Some v) f u)
| fe_fanout p v t d fs bs h f u : varint64 v p ->
    field_effect (mkField 6 0 p) (mkData t d fs bs h f u) (mkData t d fs bs h (Some v) u)
| fe_unknown n w p tag t d fs bs h f u :
    ~ In (n, w) [(1,0); (2,2); (3,0); (4,0); (4,2); (5,0); (6,0)] ->
    payload_ok w p -> min_varint (n * 8 + w) tag ->
    field_effect (mkField n w p) (mkData t d fs bs h f u) (mkData t d fs bs h f (u ++ tag ++ p)).

Inductive fields_effect : list wfield -> pbdata -> pbdata -> Prop :=
| fse_nil d : fields_effect [] d d
| fse_cons f fs d d1 d2 : field_effect f d d1 -> fields_effect fs d1 d2 -> fields_effect (f :: fs) d d2.

(** ** Go value ranges *)

Definition uint64 (z : Z) : Prop := 0 <= z < 18446744073709551616.
Definition opt_uint64 (o : option Z) : Prop := match o with Some z => uint64 z | None => True end.

(** The field values a Go pb.Data can hold. *)
Record go_data (d : pbdata) : Prop := {
  gd_type : match d_type d with Some t => -2147483648 <= t < 2147483648 | None => True end;
  gd_data : match d_data d with Some v => uint64 (zlen v) | None => True end;
  gd_filesize : opt_uint64 (d_filesize d);
  gd_blocksizes : Forall uint64 (d_blocksizes d);
  gd_hashtype : opt_uint64 (d_hashtype d);
  gd_fanout : opt_uint64 (d_fanout d)
}.

(** Unknown fields: fields that Data does not define, each with a canonical tag. *)
Inductive unknown_bytes : bytes -> Prop :=
| ub_nil : unknown_bytes []
| ub_cons n w t p bs :
    ~ In (n, w) [(1,0); (2,2); (3,0); (4,0); (4,2); (5,0); (6,0)] ->
    0 <= n -> n * 8 + w < 18446744073709551616 ->
    min_varint (n * 8 + w) t -> payload_ok w p -> unknown_bytes bs ->
    unknown_bytes (t ++ p ++ bs).

(** The canonical field list of a message, in the order of the field numbers;
    the enum is sign-extended to 64 bits; [enc] encodes a varint. *)
Definition opt_field (n w : Z) (enc : Z -> bytes) (o : option Z) : list wfield :=
  match o with Some v => [mkField n w (enc v)] | None => [] end.

Definition canonical_fields (enc : Z -> bytes) (t : Z) (d : pbdata) : list wfield :=
  [mkField 1 0 (enc (t mod 18446744073709551616))]
  ++ match d_data d with Some v => [mkField 2 2 (enc (zlen v) ++ v)] | None => [] end
  ++ opt_field 3 0 enc (d_filesize d)
  ++ map (fun v => mkField 4 0 (enc v)) (d_blocksizes d)
  ++ opt_field 5 0 enc (d_hashtype d)
  ++ opt_field 6 0 enc (d_fanout d).

(** [canonical_bytes d b]: [b] is the canonical protobuf encoding of [d]. *)
Definition canonical_bytes (d : pbdata) (b : bytes) : Prop :=
  exists t enc body,
    d_type d = Some t /\
    (forall z, uint64 z -> min_varint z (enc z)) /\
    b = body ++ d_unrec d /\
    min_message (canonical_fields enc t d) body.

(** ** FSNode edit histories *)

Inductive fsop :=
| OpSetData (b : option bytes)
| OpAddBlockSize (s : Z)
| OpRemoveBlockSize (i : Z)
| OpRemoveAllBlockSizes.

Definition fs_step (r : res FSNode) (o : fsop) : res FSNode :=
  let? n := r in
  match o with
  | OpSetData b => Ok (SetData b n)
  | OpAddBlockSize s => Ok (AddBlockSize s n)
  | OpRemoveBlockSize i => RemoveBlockSize i n
  | OpRemoveAllBlockSizes => Ok (RemoveAllBlockSizes n)
  end.
Definition fs_run (t : Z) (ops : list fsop) : res FSNode := fold_left fs_step ops (Ok (NewFSNode t)).

(** What the history means for the data and the list of block sizes. [None]: an
    index was out of range. *)
Definition spec_step (s : option (bytes * list Z)) (o : fsop) : option (bytes * list Z) :=
  match s with
  | None => None
  | Some (d, bs) =>
      match o with
      | OpSetData b => Some (obytes b, bs)
      | OpAddBlockSize x => Some (d, bs ++ [x])
      | OpRemoveBlockSize i =>
          if (0 <=? i) && (i <? zlen bs)
          then Some (d, firstn (Z.to_nat i) bs ++ skipn (S (Z.to_nat i)) bs) else None
      | OpRemoveAllBlockSizes => Some (d, [])
      end
  end.
Definition spec_run (ops : list fsop) : option (bytes * list Z) := fold_left spec_step ops (Some ([], [])).

Definition total (l : list Z) : Z := fold_right Z.add 0 l.
