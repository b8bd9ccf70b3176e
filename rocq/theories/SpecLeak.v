(** Rounds of growing a file and cutting it back, and the empty blocks in a file. *)
From Verif Require Import Base Pb FSNode Dag Modifier SpecFile SpecShare ModifierFacts.

(** Leaves without data: raw blocks and blocks of type Raw. *)
Definition blank (n : node) : bool :=
  match n with
  | NRaw _ d => zlen d =? 0
  | NProto _ b _ => match FSNodeFromBytes b with Ok f => (getType f =? TRaw) && (zlen (getData f) =? 0) | _ => false end
  end.
Definition blanks (n : node) : Z := zlen (filter blank (leaves n)).

(** [rounds split size k n n']: [n'] is [n], of [size] bytes, after it was [k] times made larger,
    with Truncate or by writing at the end of it, and then cut back to [size]; on whatever stores
    and with whatever sizes of the write buffer. *)
Inductive rounds (split : bytes -> list bytes) (size : Z) : nat -> node -> node -> Prop :=
| no_round n : rounds split size 0 n n
| one_round k n d n1 n2 n' w1 w2 s1 s2 : size < d < 9223372036854775808 -> truncate_to split d n w1 = (Ok n1, s1) -> truncate_to split size n1 w2 = (Ok n2, s2) ->
    rounds split size k n2 n' -> rounds split size (S k) n n'
| write_round k n wbsize b n1 n2 n' w1 w2 s1 s2 : b <> [] -> size + zlen b < 9223372036854775808 -> write_back split wbsize b size n w1 = (Ok n1, s1) -> truncate_to split size n1 w2 = (Ok n2, s2) ->
    rounds split size k n2 n' -> rounds split size (S k) n n'.
