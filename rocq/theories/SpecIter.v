(** Specification of iterating over a directory: the links [L] are given in this order,
    and then the enumeration ends with [R]. *)
From Verif Require Import Base Dag SpecHamt Directory SpecDir DirExec SpecResolve UnixFile.

Section Iter.
  Variables (w : world) (mayc : bool) (L : list link) (R : res unit).

  (** The file of an entry: its node, fetched and opened. *)
  Definition link_file (l : link) : res fnode := let? nd := dserv_get w (lto l) in NewUnixfsFile w nd.
  (** Next has returned true and the entry is [l]. *)
  Definition yields (l : link) (o : nextobs) : Prop :=
    exists f, link_file l = Ok f /\ n_res o = Ok true /\ n_name o = lname l /\ n_file o = Some f /\ n_err o = None.
  (** Next has returned false and Err() is [e]. *)
  Definition finishes (e : option err) (o : nextobs) : Prop := n_res o = Ok false /\ n_err o = e.

  (** What the calls of Next may show. *)
  Inductive iterated : list nextobs -> Prop :=
  | it_some done rest os : L = done ++ rest -> Forall2 yields done os -> iterated os
  | it_end os fs : Forall2 yields L os -> R = Ok tt -> Forall (finishes None) fs -> iterated (os ++ fs)
  | it_fail done rest x os fs : L = done ++ rest -> Forall2 yields done os -> Forall (finishes (Some x)) fs ->
      R = Err x \/ (exists l r, rest = l :: r /\ link_file l = Err x) \/ mayc = true -> iterated (os ++ fs)
  | it_panic done l rest os o : L = done ++ l :: rest -> Forall2 yields done os ->
      (link_file l = Panic /\ n_res o = Panic \/ link_file l = Fuel /\ n_res o = Fuel) -> iterated (os ++ [o]).
End Iter.

(** ** Directories *)

(** The file of an entry: its node, fetched and opened. *)
Definition entry_file (w : world) (e : bytes * dentry) : res fnode := let? nd := dserv_get w (snd (snd e)) in NewUnixfsFile w nd.
(** Next has returned true, and Name() and Node() give the entry. *)
Definition shows (w : world) (e : bytes * dentry) (o : nextobs) : Prop :=
  exists f, entry_file w e = Ok f /\ n_res o = Ok true /\ n_name o = fst e /\ n_file o = Some f /\ n_err o = None.
(** A call of Next that does not give an entry, when [rest] are the entries not yet given:
    either there are none, or Err() has the cause [cause rest], or opening the next entry panics. *)
Definition stops (w : world) (cause : list (bytes * dentry) -> err -> Prop) (rest : list (bytes * dentry)) (o : nextobs) : Prop :=
  (n_res o = Ok false /\ n_err o = None /\ rest = []) \/
  (n_res o = Ok false /\ exists x, n_err o = Some x /\ cause rest x) \/
  (exists e r, rest = e :: r /\ (entry_file w e = Panic /\ n_res o = Panic \/ entry_file w e = Fuel /\ n_res o = Fuel)).

Section Dir.
  Variables (hash : bytes -> bytes) (width : Z).
  (** A directory with the contents [d]: built by a client, or loaded. *)
  Definition dir_holds (b : option prefix) (st : directory * world) (d : dir) : Prop :=
    dreached hash width b st d \/ exists nd, saved hash width b (snd st) nd d /\ NewDirectoryFromNode nd = Ok (fst st).
End Dir.

(** ** The goroutine alone *)

(** Steps during which the client does nothing: it is not in a call of Next and makes none. *)
Inductive idle (w : world) (mayc : bool) : nat -> iter -> iter -> Prop :=
| idle_O t : idle w mayc 0 t t
| idle_S j s t u : idle w mayc j s t -> istep w mayc t u -> i_in u = false -> i_obs u = i_obs t -> idle w mayc (S j) s u.
