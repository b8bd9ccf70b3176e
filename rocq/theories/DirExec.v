(** Running histories of operations on the model of the directories. *)
From Verif Require Import Base Pb FSNode Dag Builder HashBits Bitfield Hamt SpecHamt HamtExec Walk Directory SpecDir.

Section Exec.
  (** Hash function and DefaultShardWidth. *)
  Variables (hash : bytes -> bytes) (width : Z).

  (** GetNode, adding the node, NewDirectoryFromNode of the node added.
      /repo/io/directory.go:332-334, 423-425, 156-179 *)
  Definition dReload (st : directory * world) : res unit * (directory * world) :=
    match dGetNode st with
    | (Ok n, (d1, w1)) =>
        match dserv_add n None w1 with
        | (Ok _, w2) =>
            match NewDirectoryFromNode (seal n) with
            | Ok d3 => (Ok tt, (d3, w2))
            | Err e => (Err e, (dEncoded d1, w2))
            | Panic => (Panic, (dEncoded d1, w2))
            | Fuel => (Fuel, (dEncoded d1, w2))
            end
        | (r, w2) => (r, (dEncoded d1, w2))
        end
    | (Err e, st1) => (Err e, st1)
    | (Panic, st1) => (Panic, st1)
    | (Fuel, st1) => (Fuel, st1)
    end.

  (** One operation on a dynamic directory; [T] is the value of HAMTShardingSize
      (/repo/io/directory.go:30) during the operation. Each case calls the function of
      Directory.v. *)
  Definition dexec (mayc : bool) (T : Z) (op : dop) : N (directory * world) hval := fun st r st' =>
    match op with
    | DAdd k n => exists r0, dAddChild hash width mayc T k n st r0 st' /\ r = rmap (fun _ => VUnit) r0
    | DRemove k => exists r0, dRemoveChild hash mayc T k st r0 st' /\ r = rmap (fun _ => VUnit) r0
    | DFind k => match dFind hash k st with (r0, st1) => st' = st1 /\ r = rmap VNode r0 end
    | DLinks => exists r0, dLinks mayc st r0 st' /\ r = rmap (fun ls => VList (map named ls)) r0
    | DEach => match dEach (fun _ _ => None) st with ((r0, acc), st1) => st' = st1 /\ r = rmap (fun _ => VList (map named (rev acc))) r0 end
    | DReload => match dReload st with (r0, st1) => st' = st1 /\ r = rmap (fun _ => VUnit) r0 end
    | DStore n => match dserv_add n None (snd st) with (r0, w1) => st' = (fst st, w1) /\ r = rmap (fun _ => VUnit) r0 end
    end.

  (** A history; the threshold may change between the operations. *)
  Inductive drun (mayc : bool) : directory * world -> list (Z * dop) -> list dobs -> directory * world -> Prop :=
  | dr_nil st : drun mayc st [] [] st
  | dr_cons T op st r st1 cs h st2 : dexec mayc T op st r st1 -> drun mayc st1 cs h st2 ->
      drun mayc st ((T, op) :: cs) (mkDobs op (snd st) (snd st1) r :: h) st2.

  (** The same on a BasicDirectory, which is deterministic. *)
  Definition bexec (op : dop) (st : basic * world) : res hval * (basic * world) :=
    let (b, w) := st in
    match op with
    | DAdd k n => let (r, b1) := bAddChild k n b in (rmap (fun _ => VUnit) r, (b1, w))
    | DRemove k => let (r, b1) := bRemoveChild k b in (rmap (fun _ => VUnit) r, (b1, w))
    | DFind k => (rmap VNode (bFind w k b), st)
    | DLinks => (Ok (VList (map named (b_links b))), st)
    | DEach => let (r, acc) := bForEachLink (fun _ _ => None) [] (b_links b) in (rmap (fun _ => VList (map named (rev acc))) r, st)
    | DReload =>
        match dReload (DBasic b, w) with
        | (r, (DBasic b1, w1)) => (rmap (fun _ => VUnit) r, (b1, w1))
        | (_, (DHamt _, w1)) => (Err EOther, (b, w1))
        end
    | DStore n => let (r, w1) := dserv_add n None w in (rmap (fun _ => VUnit) r, (b, w1))
    end.
  Fixpoint brun (ops : list dop) (st : basic * world) : list dobs * (basic * world) :=
    match ops with
    | [] => ([], st)
    | op :: r =>
        let (v, st1) := bexec op st in
        let (os, st2) := brun r st1 in
        (mkDobs op (snd st) (snd st1) v :: os, st2)
    end.
End Exec.

Definition named_dops (ops : list dop) : Prop := Forall (fun op => dname op <> Some []) ops.
(** A dynamic directory reached from a new one by some history that leaves the contents [d]. *)
Definition dreached (hash : bytes -> bytes) (width : Z) (b : option prefix) (st : directory * world) (d : dir) : Prop :=
  exists d0 w0 cs h, NewDirectory b = Ok d0 /\ named_dops (map snd cs) /\ drun hash width false (d0, w0) cs h st /\ d = dcontents dempty h.
Definition sharded (d : directory) : bool := match d with DHamt _ => true | DBasic _ => false end.
(** A history, with one threshold and without reloading, after each operation of which
    the directory is sharded. *)
Inductive stays (hash : bytes -> bytes) (width T : Z) : directory * world -> list dop -> list dobs -> directory * world -> Prop :=
| st_nil st : stays hash width T st [] [] st
| st_cons op st r st1 cs h st2 : dexec hash width false T op st r st1 -> sharded (fst st1) = true -> op <> DReload -> stays hash width T st1 cs h st2 ->
    stays hash width T st (op :: cs) (mkDobs op (snd st) (snd st1) r :: h) st2.
