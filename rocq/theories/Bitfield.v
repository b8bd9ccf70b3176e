(** Model of github.com/ipfs/go-bitfield v1.1.0, used by /repo/hamt/hamt.go. The
    source is not in /repo; the comments name the function modelled. A bitfield is
    the byte slice itself; slot [i] is bit [i mod 8] of the byte [i / 8] from the end. *)
From Verif Require Import Base.

(** [NewBitfield]. /repo/hamt/hamt.go:788 *)
Definition NewBitfield (size : Z) : res bytes :=
  if size <? 0 then Err EBadBitfield
  else if size mod 8 =? 0 then Ok (repeat x00 (Z.to_nat (size / 8)))
  else Err EBadBitfield.

(** [Bitfield.offset]: index of the byte (negative: out of range).
    Used by all functions called from /repo/hamt/hamt.go:799-928. *)
Definition bf_index (bf : bytes) (i : Z) : Z := zlen bf - i / 8 - 1.
(** The byte holding slot [i]; Go panics if there is none. /repo/hamt/hamt.go:812, 924 *)
Definition bf_byte (bf : bytes) (i : Z) : option byte :=
  if (i <? 0) || (bf_index bf i <? 0) then None else nth_error bf (Z.to_nat (bf_index bf i)).

(** [Bitfield.Bit]. /repo/hamt/hamt.go:924 *)
Definition bf_bit (bf : bytes) (i : Z) : res bool :=
  match bf_byte bf i with
  | Some b => Ok (Z.testbit (b2z b) (i mod 8))
  | None => Panic
  end.

(** Replacing an element of a slice. /repo/hamt/hamt.go:840, 846-847 *)
Fixpoint set_nth {A} (n : nat) (x : A) (l : list A) : list A :=
  match l, n with
  | [], _ => []
  | _ :: r, O => x :: r
  | y :: r, S m => y :: set_nth m x r
  end.

(** [Bitfield.SetBit]. /repo/hamt/hamt.go:840 *)
Definition bf_set (bf : bytes) (i : Z) : res bytes :=
  match bf_byte bf i with
  | Some b => Ok (set_nth (Z.to_nat (bf_index bf i)) (z2b (Z.lor (b2z b) (2 ^ (i mod 8)))) bf)
  | None => Panic
  end.
(** [Bitfield.UnsetBit]. /repo/hamt/hamt.go:868 *)
Definition bf_unset (bf : bytes) (i : Z) : res bytes :=
  match bf_byte bf i with
  | Some b => Ok (set_nth (Z.to_nat (bf_index bf i)) (z2b (Z.land (b2z b) (Z.lxor 255 (2 ^ (i mod 8))))) bf)
  | None => Panic
  end.

(** math/bits [OnesCount8], for /repo/hamt/hamt.go:812. *)
Definition ones8 (z : Z) : Z :=
  fold_right (fun k n => (if Z.testbit z k then 1 else 0) + n) 0 [0; 1; 2; 3; 4; 5; 6; 7].
(** [Bitfield.OnesBefore]. /repo/hamt/hamt.go:812 *)
Definition bf_before (bf : bytes) (i : Z) : res Z :=
  match bf_byte bf i with
  | Some b =>
      Ok (ones8 ((b2z b * 2 ^ (8 - i mod 8)) mod 256) +
          fold_right (fun c n => ones8 (b2z c) + n) 0 (skipn (S (Z.to_nat (bf_index bf i))) bf))
  | None => Panic
  end.

(** [Bitfield.Bytes]: without leading zero bytes; nil if all are zero.
    /repo/hamt/hamt.go:222 *)
Fixpoint bf_bytes (bf : bytes) : option bytes :=
  match bf with
  | [] => None
  | b :: r => if b2z b =? 0 then bf_bytes r else Some bf
  end.
(** [Bitfield.SetBytes]: right aligned; panics if the bytes do not fit.
    /repo/hamt/hamt.go:801 *)
Definition bf_setbytes (bf b : bytes) : res bytes :=
  if zlen bf <? zlen b then Panic
  else Ok (repeat x00 (length bf - length b) ++ b).
