(** Encoded blocks, written out: the dag-pb format of the blocks of a DAG, to compare the
    sizes of the model with. *)
From Verif Require Import Base Pb Dag.

(** A field with a length in front of its bytes. *)
Definition field (tag : byte) (b : bytes) : bytes := tag :: varint (zlen b) ++ b.
(** Binary CID (go-cid): a bare multihash (version 0), or version, codec and multihash. *)
Definition enc_cid (p : prefix) (digest : bytes) : bytes :=
  let mh := varint (p_mhtype p) ++ varint (p_mhlen p) ++ digest in
  if p_version p =? 0 then mh else x01 :: varint (p_codec p) ++ mh.
(** message PBLink { optional bytes Hash = 1; optional string Name = 2; optional uint64 Tsize = 3; }
    message PBNode { repeated PBLink Links = 2; optional bytes Data = 1; } with the links first. *)
Definition enc_link (digest : node -> bytes) (l : link) : bytes :=
  field x12 (field x0a (enc_cid (node_prefix (lto l)) (digest (lto l))) ++ field x12 (lname l) ++ x18 :: varint (lsize l)).
Definition enc_block (digest : node -> bytes) (n : node) : bytes :=
  match n with
  | NRaw _ d => d
  | NProto _ d ls => concat (map (enc_link digest) ls) ++ match d with [] => [] | _ => field x0a d end
  end.
(** Everything below a node, once per link. *)
Fixpoint all_blocks (digest : node -> bytes) (n : node) : list bytes :=
  enc_block digest n :: match n with NRaw _ _ => [] | NProto _ _ ls => concat (map (fun l => all_blocks digest (lto l)) ls) end.
