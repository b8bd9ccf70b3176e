(** Specification of hash bits, slot bitmaps and slot names. *)
From Verif Require Import Base.

(** The bits of a byte, most significant first, and of a byte string. *)
Definition byte_bits (b : byte) : list bool := map (Z.testbit (b2z b)) [7; 6; 5; 4; 3; 2; 1; 0].
Definition all_bits (h : bytes) : list bool := flat_map byte_bits h.
(** Number with the given binary digits. *)
Definition bits_value (l : list bool) : Z := fold_left (fun a (b : bool) => 2 * a + (if b then 1 else 0)) l 0.
(** The [i] bits of [h] after the first [c], as a number. *)
Definition bits_at (h : bytes) (c i : Z) : Z := bits_value (firstn (Z.to_nat i) (skipn (Z.to_nat c) (all_bits h))).

(** Set of slots of a bitmap: slot [i] is bit [i] of the big-endian number. *)
Definition be_number (bf : bytes) : Z := fold_left (fun a b => 256 * a + b2z b) bf 0.
Definition occupied (bf : bytes) (i : Z) : bool := Z.testbit (be_number bf) i.
(** How many slots before [i] are occupied. *)
Definition occupied_before (bf : bytes) (i : Z) : Z :=
  zlen (filter (fun k => occupied bf (Z.of_nat k)) (seq 0 (Z.to_nat i))).

(** Names compared byte by byte. *)
Inductive name_lt : bytes -> bytes -> Prop :=
| nl_nil x b : name_lt [] (x :: b)
| nl_here x y a b : b2z x < b2z y -> name_lt (x :: a) (y :: b)
| nl_later x a b : name_lt a b -> name_lt (x :: a) (x :: b).

(** A power of two. *)
Definition power_of_two (v : Z) : Prop := exists k, 0 <= k /\ v = 2 ^ k.
(** The widths a sharded directory may have. *)
Definition valid_width (v : Z) : Prop := power_of_two v /\ v mod 8 = 0 /\ v <= 1024.
