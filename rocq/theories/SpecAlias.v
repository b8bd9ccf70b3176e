(** What callers that hold nodes and modifiers may rely on. *)
From Verif Require Import Base Pb FSNode Dag Builder Reader Modifier SpecModifier Alias.

(** Calls that take data in. *)
Definition writes (op : mop) : bool := match op with MWrite _ | MWriteAt _ _ => true | _ => false end.
(** Calls that first write out what is in the buffer. *)
Definition syncs (op : mop) : bool := match op with MSeek _ _ | MTruncate _ | MRead _ | MSync | MGetNode => true | _ => false end.

(** Same data, and links with the same names and sizes. *)
Definition same_frame (n n' : node) : Prop :=
  node_prefix n = node_prefix n' /\ node_bytes n = node_bytes n' /\
  map lname (node_links n) = map lname (node_links n') /\ map lsize (node_links n) = map lsize (node_links n').

(** No modifier is made. *)
Definition no_new (cs : list hcall) : Prop := forall j, ~ In (HNew j) cs.

(** Fetch each node and make a modifier from it, with [j] nodes in hand. *)
Fixpoint opening (j : nat) (ks : list node) : list hcall :=
  match ks with [] => [] | k :: r => HGet k :: HNew j :: opening (S j) r end.

Section Spec.
  Variable split : bytes -> list bytes.
  Variable wbsize : Z.

  (** A call of a modifier that shares nothing (Modifier.v). *)
  Definition mcall (op : mop) : M mst mobs :=
    match op with
    | MWrite b => bind (mWrite split wbsize b) (fun z => ret (BInt z))
    | MWriteAt b off => bind (WriteAt split wbsize b off) (fun z => ret (BInt z))
    | MSeek off wh => bind (mSeek split off wh) (fun z => ret (BInt z))
    | MTruncate n => bind (mTruncate split n) (fun _ => ret BDone)
    | MRead k => bind (mRead split k) (fun x => ret (BData (fst x) (snd x)))
    | MSize => bind mSize (fun z => ret (BInt z))
    | MSync => bind (Sync split) (fun _ => ret BDone)
    | MGetNode => bind (mGetNode split) (fun n => ret (BNode n))
    end.

  (** Calls of modifiers that have nothing but the DAG service in common. *)
  Fixpoint apart_run (w : world) (ms : list modifier) (cs : list (nat * mop)) : option (list (res mobs) * world) :=
    match cs with
    | [] => Some ([], w)
    | (i, op) :: r =>
        match nth_error ms i with
        | None => None
        | Some m =>
            let '(q, (m', w')) := mcall op (m, w) in
            option_map (fun x => (q :: fst x, snd x)) (apart_run w' (set_nth i m' ms) r)
        end
    end.
End Spec.
