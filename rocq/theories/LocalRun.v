(** Running sequences of reader calls with any destinations. *)
From Verif Require Import Base Pb FSNode Dag Reader SpecReader ReaderRun SpecLocal.

(** One call: what is observed, and the reader afterwards; [None] for a panic. *)
Definition lstep (w : world) (op : lop) (r : reader) : option (robs * reader) :=
  match op with
  | LRead k => let '(m, e, r') := CtxReadFull w k r in match obs_err e with Some e => Some ((m, zlen m, e), r') | None => None end
  | LSeek o wh => let '(n, e, r') := Seek w o wh r in match obs_err e with Some e => Some (([], n, e), r') | None => None end
  | LCopy wr => let '(m, e, r') := WriteTo w wr r in match obs_err e with Some e => Some ((m, zlen m, e), r') | None => None end
  end.
(** A sequence of calls; the store may change between calls. *)
Fixpoint lrun (l : list (world * lop)) (r : reader) : option (list robs * reader) :=
  match l with
  | [] => Some ([], r)
  | (w, op) :: l' =>
      match lstep w op r with
      | None => None
      | Some (o, r1) => match lrun l' r1 with None => None | Some (t, r2) => Some (o :: t, r2) end
      end
  end.
