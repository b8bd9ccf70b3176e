(** Specification of the directories of package io: a finite map from names to entries
    ([dir] of SpecHamt.v), whatever the representation. *)
From Verif Require Import Base Dag SpecHash SpecHamt.

(** Operations of a client. *)
Inductive dop :=
| DAdd (k : bytes) (n : node)     (** AddChild *)
| DRemove (k : bytes)             (** RemoveChild *)
| DFind (k : bytes)               (** Find *)
| DLinks                          (** Links *)
| DEach                           (** ForEachLink, collecting names, sizes and targets *)
| DReload                         (** GetNode, adding that node to the DAG service, NewDirectoryFromNode of it *)
| DStore (n : node).              (** adding a node to the DAG service *)
Definition dname (op : dop) : option bytes :=
  match op with DAdd k _ | DRemove k | DFind k => Some k | _ => None end.

(** One step of a history: the operation, the DAG service before and after it, and the
    result. *)
Record dobs := mkDobs { q_op : dop; q_w : world; q_w' : world; q_res : res hval }.

(** Successful operations take effect, failing ones do not. *)
Definition deffect (d : dir) (o : dobs) : dir :=
  match q_res o, q_op o with
  | Ok _, DAdd k n => dput d k (Some (node_entry n))
  | Ok _, DRemove k => dput d k None
  | _, _ => d
  end.
Definition dcontents (d : dir) (h : list dobs) : dir := fold_left deffect h d.

Section Allowed.
  (** When may an operation report that a block cannot be fetched, and when may adding
      an entry be refused, for the entries it would lead to? *)
  Variables (missing : world -> Prop) (refused : dir -> Prop).

  (** The results an operation may have on a directory. Find fetches the node found. *)
  Definition dallowed (d : dir) (o : dobs) : Prop :=
    (missing (q_w o) /\ q_res o = Err EFetch) \/
    (add_failed (q_w o) (q_w' o) /\ q_res o = Err EAdd /\ match q_op o with DAdd _ _ | DReload | DStore _ => True | _ => False end) \/
    (~ add_failed (q_w o) (q_w' o) /\
      match q_op o with
      | DAdd k n => q_res o = Ok VUnit \/ (refused (dput d k (Some (node_entry n))) /\ q_res o = Err ETooDeep)
      | DRemove k => q_res o = match d k with None => Err ENotExist | Some _ => Ok VUnit end
      | DFind k => q_res o = match d k with None => Err ENotExist | Some e => rmap VNode (dserv_get (q_w o) (snd e)) end
      | DLinks | DEach => exists l, q_res o = Ok (VList l) /\ listing d l
      | DReload | DStore _ => q_res o = Ok VUnit
      end).

  (** A history all of whose results are allowed. *)
  Fixpoint dconforms (d : dir) (h : list dobs) : Prop :=
    match h with [] => True | o :: r => dallowed d o /\ dconforms (deffect d o) r end.
End Allowed.

(** Some block of the DAG service cannot be fetched. *)
Definition unreachable (w : world) : Prop := exists x, w_getok w x = false.
(** Two names of the directory that no sharded directory can keep apart. *)
Definition crowded (hash : bytes -> bytes) (usable : Z) (d : dir) : Prop :=
  exists k k', k <> k' /\ d k <> None /\ d k' <> None /\ collide hash usable k k'.
Definition never {A} (_ : A) : Prop := False.

(** Size of an entry, and of a directory: names and CIDs. *)
Definition entry_size (e : bytes * dentry) : Z := zlen (fst e) + cid_len (node_prefix (snd (snd e))).
Definition has_size (d : dir) (z : Z) : Prop := exists l, listing d l /\ z = sumZ (map entry_size l).

(** The size of the directory, once at the threshold or above it, never falls below it. *)
Fixpoint keeps (T : Z) (d : dir) (h : list dobs) : Prop :=
  match h with
  | [] => True
  | o :: r => (forall z z', has_size d z -> has_size (deffect d o) z' -> T <= z -> T <= z') /\ keeps T (deffect d o) r
  end.
