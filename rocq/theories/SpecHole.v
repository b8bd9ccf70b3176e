(** The ways to write data past the end of a file. *)
From Verif Require Import Base Dag Builder Modifier ModifierFacts.

(** The answer of a call and the store after it. *)
Definition outcome (x : res node * mst) : res node * world := (fst x, snd (snd x)).

(** Truncate to [off], GetNode, and WriteAt at the new end of the node that was returned. *)
Definition grow_write (split : bytes -> list bytes) (wbsize : Z) (b : bytes) (off : Z) (n : node) (w : world) : res node * mst :=
  match truncate_to split off n w with
  | (Ok n1, (_, w1)) => write_back split wbsize b off n1 w1
  | x => x
  end.
(** Seek to [off] from the start, Write and GetNode. *)
Definition seek_write (split : bytes -> list bytes) (wbsize : Z) (b : bytes) (off : Z) (n : node) (w : world) : res node * mst :=
  (do _ <- mSeek split off 0 ;; do _ <- mWrite split wbsize b ;; mGetNode split) (NewDagModifier n, w).

(** [l] cuts its data into pieces of [s] bytes; the last one may be shorter. *)
Definition cut_every (s : Z) (l : list bytes) : Prop :=
  exists full last, l = full ++ last /\ Forall (fun x => zlen x = s) full /\ (last = [] \/ exists x, last = [x] /\ 0 < zlen x < s).
