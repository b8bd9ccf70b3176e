(** The format of the blocks of a file: for each block, whether it is a raw block and the
    prefix of its CID (version, codec, hash function and length). *)
From Verif Require Import Base Dag SpecFile.

Definition is_raw (n : node) : bool := match n with NRaw _ _ => true | NProto _ _ _ => false end.
(** Every block of [n] has an allowed format. *)
Definition of_format (P : bool -> prefix -> Prop) (n : node) : Prop := forall m, reach n m -> P (is_raw m) (node_prefix m).
(** The blocks added to the store from [w] to [w'] have an allowed format, with all below them. *)
Definition adds_format (P : bool -> prefix -> Prop) (w w' : world) : Prop :=
  forall x, In x (w_added w') -> In x (w_added w) \/ of_format P (fst x).
(** CIDv0: only dag-pb blocks, hashed with sha2-256. *)
Definition cidv0 (raw : bool) (p : prefix) : Prop := raw = false /\ p = mkPrefix 0 112 18 32.
(** CIDv1 with the hash function [h] of length [k]: dag-pb blocks and raw blocks. *)
Definition cidv1 (h k : Z) (raw : bool) (p : prefix) : Prop := p = mkPrefix 1 (if raw then 85 else 112) h k.
(** Every leaf is a raw block; every leaf is a dag-pb block. *)
Definition raw_leaves (r : bool) (n : node) : Prop := forall m, reach n m -> node_links m = [] -> is_raw m = r.
