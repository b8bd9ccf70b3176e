(** What every reader owes its caller, whatever it reads: at most the bytes asked for, all of
    them if there is no error; the number returned is the number delivered; positions are
    not negative. *)
From Verif Require Import Base SpecReader.
Definition contract (op : rop) (o : robs) : Prop :=
  let '(m, z, e) := o in
  match op with
  | OpRead k => z = zlen m /\ zlen m <= Z.of_nat k /\ (e = None -> zlen m = Z.of_nat k)
  | OpSeek _ _ => m = [] /\ (e = None -> 0 <= z)
  | OpCopy => z = zlen m
  end.
