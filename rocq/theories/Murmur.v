(** The hash function of sharded directories: the first half of the 128-bit MurmurHash3
    for 64-bit machines with seed 0. /repo/hamt/util.go:76-80 calls
    github.com/spaolacci/murmur3 1.1.0, whose source is not in /repo; the definitions below
    follow its murmur128.go and murmur64.go. *)
From Verif Require Import Base.

(** Used by murmur3Hash, /repo/hamt/util.go:76-80: math/bits [RotateLeft64]. *)
Definition rotl (r x : Z) : Z := Z.lor (u64 (Z.shiftl x r)) (Z.shiftr x (64 - r)).
(** Used by murmur3Hash, /repo/hamt/util.go:76-80: a little-endian number. *)
Definition le_num (b : bytes) : Z := fold_right (fun x a => b2z x + 256 * a) 0 b.
(** Used by murmur3Hash, /repo/hamt/util.go:76-80: the [n] low bytes, the highest first. *)
Fixpoint be_digits (n : nat) (z : Z) : bytes :=
  match n with O => [] | S n' => z2b (Z.shiftr z (8 * Z.of_nat n')) :: be_digits n' z end.

(** Used by murmur3Hash, /repo/hamt/util.go:76-80: the constants of murmur128.go. *)
Definition mc1 : Z := 9782798678568883157. (* 0x87c37b91114253d5 *)
Definition mc2 : Z := 5545529020109919103. (* 0x4cf5ad432745937f *)
Definition mf1 : Z := 18397679294719823053. (* 0xff51afd7ed558ccd *)
Definition mf2 : Z := 14181476777654086739. (* 0xc4ceb9fe1a85ec53 *)

(** Used by murmur3Hash, /repo/hamt/util.go:76-80: what the halves of a block or of the
    tail are multiplied with. *)
Definition mix1 (k : Z) : Z := u64 (rotl 31 (u64 (k * mc1)) * mc2).
Definition mix2 (k : Z) : Z := u64 (rotl 33 (u64 (k * mc2)) * mc1).
(** Used by murmur3Hash, /repo/hamt/util.go:76-80: bmix of murmur128.go, one block. *)
Definition bmix (k1 k2 : Z) (h : Z * Z) : Z * Z :=
  let (h1, h2) := h in
  let h1' := u64 (u64 (rotl 27 (Z.lxor h1 (mix1 k1)) + h2) * 5 + 1390208809) in
  let h2' := u64 (u64 (rotl 31 (Z.lxor h2 (mix2 k2)) + h1') * 5 + 944331445) in
  (h1', h2').
(** Used by murmur3Hash, /repo/hamt/util.go:76-80: all whole blocks, and what is left. *)
Fixpoint mblocks (fuel : nat) (b : bytes) (h : Z * Z) : bytes * (Z * Z) :=
  match fuel with
  | O => (b, h)
  | S f =>
      if (16 <=? length b)%nat
      then mblocks f (skipn 16 b) (bmix (le_num (firstn 8 b)) (le_num (firstn 8 (skipn 8 b))) h)
      else (b, h)
  end.
(** Used by murmur3Hash, /repo/hamt/util.go:76-80: the tail in Sum128 of murmur128.go. *)
Definition mtail (t : bytes) (h : Z * Z) : Z * Z :=
  let (h1, h2) := h in (Z.lxor h1 (mix1 (le_num (firstn 8 t))), Z.lxor h2 (mix2 (le_num (skipn 8 t)))).
(** Used by murmur3Hash, /repo/hamt/util.go:76-80: fmix64 of murmur128.go. *)
Definition fmix (k : Z) : Z :=
  let k := Z.lxor k (Z.shiftr k 33) in let k := u64 (k * mf1) in
  let k := Z.lxor k (Z.shiftr k 33) in let k := u64 (k * mf2) in
  Z.lxor k (Z.shiftr k 33).
(** Used by murmur3Hash, /repo/hamt/util.go:76-80: the end of Sum128 of murmur128.go,
    its first half. *)
Definition mfinal (len : Z) (h : Z * Z) : Z :=
  let (h1, h2) := h in
  let h1 := Z.lxor h1 (u64 len) in let h2 := Z.lxor h2 (u64 len) in
  let h1 := u64 (h1 + h2) in let h2 := u64 (h2 + h1) in
  u64 (fmix h1 + fmix h2).
(** Used by murmur3Hash, /repo/hamt/util.go:76-80: Sum64 of murmur64.go. *)
Definition murmur64 (b : bytes) : Z :=
  let (t, h) := mblocks (length b) b (0, 0) in mfinal (zlen b) (mtail t h).
(** /repo/hamt/util.go:76-80 *)
Definition murmur3Hash (val : bytes) : bytes := be_digits 8 (murmur64 val).
