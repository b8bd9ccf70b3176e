(** Overwriting a file in place, one write after the other. *)
From Verif Require Import Base Pb FSNode Dag Builder Importer Reader Modifier SpecFile SpecModifier ModifierFacts.

(** [n'] is what the writes make of [n], each with a new modifier and the store as it
    happens to be (New, WriteAt, GetNode).
    /repo/mod/dagmodifier.go:64-87, 90-119, 380-386 *)
Inductive overwritten (split : bytes -> list bytes) (wbsize : Z) : node -> list (Z * bytes) -> node -> Prop :=
| ow_none n : overwritten split wbsize n [] n
| ow_write n off b w n1 s ops n' : write_back split wbsize b off n w = (Ok n1, s) ->
    overwritten split wbsize n1 ops n' -> overwritten split wbsize n ((off, b) :: ops) n'.

(** The writes are inside a file of [len] bytes. *)
Definition inside (len : Z) (ops : list (Z * bytes)) : Prop := Forall (fun x => 0 <= fst x /\ fst x + zlen (snd x) <= len) ops.
(** What they make of the contents. *)
Definition puts (c : bytes) (ops : list (Z * bytes)) : bytes := fold_left (fun c x => put c (fst x) (snd x)) ops c.
