(** Model of /repo/hamt/util.go and of the fmt verbs used for slot names. *)
From Verif Require Import Base.

(** /repo/hamt/util.go:13-16 *)
Record hashBits := mkHB { hb_b : bytes; hb_consumed : Z }.

(** A byte with its [n] low bits set, [n <= 8]. /repo/hamt/util.go:28-30 *)
Definition mkmask (n : Z) : Z := (2 ^ n - 1) mod 256.

(** /repo/hamt/util.go:41-64. Ints are not bounded here, which is right for widths
    below 63 bits. The recursion ends as each round uses up a byte; [fuel] bounds it. *)
Fixpoint hb_next (fuel : nat) (hb : hashBits) (i : Z) : res (Z * hashBits) :=
  match fuel with
  | O => Fuel
  | S f =>
      let leftb := 8 - hb_consumed hb mod 8 in
      match nth_error (hb_b hb) (Z.to_nat (hb_consumed hb / 8)) with
      | None => Panic
      | Some cb =>
          let curb := b2z cb in
          if i =? leftb then Ok (Z.land (mkmask i) curb, mkHB (hb_b hb) (hb_consumed hb + i))
          else if i <? leftb then
            let a := Z.land curb (mkmask leftb) in
            let b := Z.ldiff a (mkmask (leftb - i)) in
            Ok (Z.shiftr b (leftb - i), mkHB (hb_b hb) (hb_consumed hb + i))
          else
            let out := Z.shiftl (Z.land (mkmask leftb) curb) (i - leftb) in
            let? (o, hb') := hb_next f (mkHB (hb_b hb) (hb_consumed hb + leftb)) (i - leftb) in
            Ok (out + o, hb')
      end
  end.

(** /repo/hamt/util.go:34-39 *)
Definition Next (hb : hashBits) (i : Z) : res (Z * hashBits) :=
  if zlen (hb_b hb) * 8 <? hb_consumed hb + i then Err ETooDeep
  else hb_next (S (Z.to_nat i)) hb i.

(** math/bits [TrailingZeros] of a positive number.
    Called at /repo/hamt/util.go:71. *)
Fixpoint ctz (p : positive) : Z :=
  match p with xO q => 1 + ctz q | _ => 0 end.

(** /repo/hamt/util.go:67-76 *)
Definition Logtwo (v : Z) : res Z :=
  match v with
  | Zpos p => if 2 ^ ctz p =? v then Ok (ctz p) else Err EBadWidth
  | _ => Err EBadWidth
  end.

(** ** fmt *)

(** Upper case hexadecimal digit. fmt [%X] at /repo/hamt/hamt.go:121, 763 *)
Definition hexdigit (d : Z) : byte := if d <? 10 then z2b (48 + d) else z2b (55 + d).
(** [fmt.Sprintf("%X", z)] for [0 <= z]; [fuel]: number of digits allowed. Used at
    /repo/hamt/hamt.go:121, 763. *)
Fixpoint hex (fuel : nat) (z : Z) : bytes :=
  match fuel with
  | O => []
  | S f => if z <? 16 then [hexdigit z] else hex f (z / 16) ++ [hexdigit (z mod 16)]
  end.
Definition hexX (z : Z) : bytes := hex (S (Z.to_nat (Z.log2 z))) z.
(** [fmt.Sprintf("%0nX", z)]. /repo/hamt/hamt.go:763 *)
Definition hexpad (n : nat) (z : Z) : bytes := repeat x30 (n - length (hexX z)) ++ hexX z.
