(** Meaning of a message Metadata (/repo/pb/unixfs.proto:24-26). *)
From Verif Require Import Base SpecCodec.

(** [mime_of fs d m]: after the fields [fs] the mime type is [m], if it was [d] before. Only
    field 1 with wire type 2 counts, and its last occurrence. *)
Inductive mime_of : list wfield -> bytes -> bytes -> Prop :=
| mo_nil d : mime_of [] d d
| mo_mime l v fs d m : varint64 (zlen v) l -> mime_of fs v m -> mime_of (mkField 1 2 (l ++ v) :: fs) d m
| mo_other f fs d m : (f_num f, f_wire f) <> (1, 2) -> mime_of fs d m -> mime_of (f :: fs) d m.

(** [last_number num fs d v]: [v] is the value of the last field [num] of wire type 0 among
    [fs], [d] if there is none; [last_bytes] the same for wire type 2. *)
Inductive last_number (num : Z) : list wfield -> Z -> Z -> Prop :=
| ln_nil d : last_number num [] d d
| ln_field p v fs d m : varint64 v p -> last_number num fs v m -> last_number num (mkField num 0 p :: fs) d m
| ln_other f fs d m : (f_num f, f_wire f) <> (num, 0) -> last_number num fs d m -> last_number num (f :: fs) d m.
Inductive last_bytes (num : Z) : list wfield -> bytes -> bytes -> Prop :=
| lb_nil d : last_bytes num [] d d
| lb_field l v fs d m : varint64 (zlen v) l -> last_bytes num fs v m -> last_bytes num (mkField num 2 (l ++ v) :: fs) d m
| lb_other f fs d m : (f_num f, f_wire f) <> (num, 2) -> last_bytes num fs d m -> last_bytes num (f :: fs) d m.
