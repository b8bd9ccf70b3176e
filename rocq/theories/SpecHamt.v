(** Specification of a sharded directory: a finite map from names to entries.
    An entry is the recorded size and the target node. *)
From Verif Require Import Base Dag SpecHash.

Definition dentry := (Z * node)%type.
(** What a directory contains. *)
Definition dir := bytes -> option dentry.
Definition dempty : dir := fun _ => None.
Definition dput (d : dir) (k : bytes) (v : option dentry) : dir := fun x => if bytes_eqb x k then v else d x.
Definition deq (d d' : dir) : Prop := forall k, d k = d' k.
(** The entries of a directory, each once. *)
Definition listing (d : dir) (l : list (bytes * dentry)) : Prop :=
  NoDup (map fst l) /\ forall k e, In (k, e) l <-> d k = Some e.

(** Operations a client performs, and what they deliver. *)
Inductive hop :=
| HSet (k : bytes) (n : node)
| HSetLink (k : bytes) (l : link)
| HSwap (k : bytes) (n : node)
| HRemove (k : bytes)
| HTake (k : bytes)
| HFind (k : bytes)
| HEach          (** ForEachLink, collecting names, sizes and targets *)
| HNode          (** Node *)
| HReload.       (** Node, then going on with NewHamtFromDag of that node *)
Inductive hval :=
| VUnit
| VOld (o : option dentry)       (** the previous entry *)
| VEntry (e : dentry)
| VList (l : list (bytes * dentry))
| VNode (n : node).

Definition hname (op : hop) : option bytes :=
  match op with
  | HSet k _ | HSetLink k _ | HSwap k _ | HRemove k | HTake k | HFind k => Some k
  | HEach | HNode | HReload => None
  end.
Definition is_reload (op : hop) : bool := match op with HReload => true | _ => false end.

(** One step of a history: the operation, whether some Add it made failed, its result. *)
Record hobs := mkObs { o_op : hop; o_failed : bool; o_res : res hval }.

(** The entry made for a node: its size and the node as it is stored. *)
Definition node_entry (n : node) : dentry := (node_size n, seal n).

(** Successful operations take effect, failing ones do not. *)
Definition effect (d : dir) (o : hobs) : dir :=
  match o_res o with
  | Ok _ =>
      match o_op o with
      | HSet k n | HSwap k n => dput d k (Some (node_entry n))
      | HSetLink k l => dput d k (Some (lsize l, lto l))
      | HRemove k | HTake k => dput d k None
      | HFind _ | HEach | HNode | HReload => d
      end
  | _ => d
  end.
Definition contents (d : dir) (h : list hobs) : dir := fold_left effect h d.

Section Allowed.
  (** The hash function, and how many of its bits a path of slots can use. *)
  Variables (hash : bytes -> bytes) (usable : Z).
  (** Whether some block cannot be fetched. *)
  Variable missing : Prop.

  (** Two names that no path of slots can separate. *)
  Definition collide (k k' : bytes) : Prop :=
    firstn (Z.to_nat usable) (all_bits (hash k)) = firstn (Z.to_nat usable) (all_bits (hash k')).
  Definition too_deep (d : dir) (k : bytes) : Prop :=
    d k = None /\ exists k', k' <> k /\ d k' <> None /\ collide k k'.

  Definition put_allowed (d : dir) (k : bytes) (v : hval) (r : res hval) : Prop :=
    (too_deep d k /\ r = Err ETooDeep) \/ (~ too_deep d k /\ r = Ok v).
  Definition remove_allowed (d : dir) (k : bytes) (v : option dentry -> hval) (r : res hval) : Prop :=
    match d k with None => r = Err ENotExist | Some e => r = Ok (v (Some e)) end.

  (** The results an operation may have on a directory. *)
  Definition allowed (d : dir) (o : hobs) : Prop :=
    (missing /\ o_res o = Err EFetch) \/
    if o_failed o then o_res o = Err EAdd /\ match o_op o with HSet _ _ | HSwap _ _ | HNode | HReload => True | _ => False end
    else
      match o_op o with
      | HSet k _ | HSetLink k _ => put_allowed d k VUnit (o_res o)
      | HSwap k _ => put_allowed d k (VOld (d k)) (o_res o)
      | HRemove k => remove_allowed d k (fun _ => VUnit) (o_res o)
      | HTake k => remove_allowed d k VOld (o_res o)
      | HFind k => match d k with None => o_res o = Err ENotExist | Some e => o_res o = Ok (VEntry e) end
      | HEach => exists l, o_res o = Ok (VList l) /\ listing d l
      | HNode => exists n, o_res o = Ok (VNode n)
      | HReload => o_res o = Ok VUnit
      end.

  (** A history all of whose results are allowed. *)
  Fixpoint conforms (d : dir) (h : list hobs) : Prop :=
    match h with [] => True | o :: r => allowed d o /\ conforms (effect d o) r end.
End Allowed.

(** ** Callbacks *)

(** Link delivered for an entry: under its plain name. *)
Definition plain (e : bytes * dentry) : link := mkLink (fst e) (fst (snd e)) (snd (snd e)).
(** The entries are handed to the callback one after the other until it returns an
    error. [acc] are the links it has seen, newest first. *)
Fixpoint feed (cb : list link -> link -> option err) (acc : list link) (es : list (bytes * dentry)) : option err * list link :=
  match es with
  | [] => (None, acc)
  | e :: r => match cb acc (plain e) with Some x => (Some x, plain e :: acc) | None => feed cb (plain e :: acc) r end
  end.

(** ** The DAG service *)

(** A later state of the service: more blocks, more calls, same faults. *)
Definition wext (w w' : world) : Prop :=
  w_has w' = w_has w /\ w_addok w' = w_addok w /\ w_getok w' = w_getok w /\ (exists l, w_added w' = w_added w ++ l) /\ (w_calls w <= w_calls w')%nat.

(** Some Add call between two worlds failed. *)
Definition add_failed (w w' : world) : Prop := exists n, (w_calls w <= n < w_calls w')%nat /\ w_addok w n = false.
