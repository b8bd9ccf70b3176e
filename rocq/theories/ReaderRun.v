(** Running sequences of reader calls, for the statements about the reader. *)
From Verif Require Import Base Pb FSNode Dag Reader SpecReader.

(** A destination that accepts everything. *)
Definition good_writer : writer := fun _ b => (length b, false).

(** The error of a call; [None] for a panic or exhausted fuel. *)
Definition obs_err (e : res unit) : option (option err) :=
  match e with
  | Ok _ => Some None
  | Err e => Some (Some e)
  | Panic => None
  | Fuel => None
  end.

(** One call: what is observed, and the reader afterwards. *)
Definition reader_step (w : world) (op : rop) (r : reader) : option (robs * reader) :=
  match op with
  | OpRead k =>
      let '(m, e, r') := CtxReadFull w k r in
      match obs_err e with Some e => Some ((m, zlen m, e), r') | None => None end
  | OpSeek o wh =>
      let '(n, e, r') := Seek w o wh r in
      match obs_err e with Some e => Some (([], n, e), r') | None => None end
  | OpCopy =>
      let '(m, e, r') := WriteTo w good_writer r in
      match obs_err e with Some e => Some ((m, zlen m, e), r') | None => None end
  end.

(** A sequence of calls; the store may change between calls. *)
Fixpoint reader_run (l : list (world * rop)) (r : reader) : option (list (rop * robs) * reader) :=
  match l with
  | [] => Some ([], r)
  | (w, op) :: l' =>
      match reader_step w op r with
      | None => None
      | Some (o, r1) =>
          match reader_run l' r1 with
          | None => None
          | Some (t, r2) => Some ((op, o) :: t, r2)
          end
      end
  end.
