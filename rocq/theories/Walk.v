(** Model of the parallel enumeration, /repo/hamt/hamt.go:390-402, 414-622, as a
    transition system. The goroutines are the dispatcher and the workers; a step is
    what one of them does between two synchronisations. The channels are unbuffered,
    so sending and receiving is one step. The context given by the caller may be
    cancelled at any time. *)
From Verif Require Import Base Pb FSNode Dag Builder HashBits Bitfield Hamt.

(** /repo/hamt/hamt.go:434-437 *)
Record job := mkJob { j_cids : list node; j_shards : list shard }.

(** The links given to the callback, in order, and what is returned.
    /repo/hamt/hamt.go:439-483 *)
Fixpoint walkSlots (ds : shard) (slots : list (slot shard)) : list link * res job :=
  match slots with
  | [] => ([], Ok (mkJob [] []))
  | SLink l :: r =>
      match childLinkType ds l with
      | Ok true =>
          match makeShardValue ds l with
          | Ok sv => let (ls, j) := walkSlots ds r in (mkLink (s_key sv) (lsize l) (lto l) :: ls, j)
          | Err e => ([], Err e)
          | Panic => ([], Panic)
          | Fuel => ([], Fuel)
          end
      | Ok false => let (ls, j) := walkSlots ds r in (ls, rmap (fun j => mkJob (lto l :: j_cids j) (j_shards j)) j)
      | Err e => ([], Err e)
      | Panic => ([], Panic)
      | Fuel => ([], Fuel)
      end
  | SShard c :: r =>
      let (ls, j) := walkSlots ds r in
      match s_val c with
      | Some v => (mkLink (s_key c) (lsize v) (lto v) :: ls, j)
      | None => (ls, rmap (fun j => mkJob (j_cids j) (c :: j_shards j)) j)
      end
  end.
Definition walkChildren (ds : shard) : list link * res job := walkSlots ds (s_slots ds).

(** A block delivered by GetMany, loaded and its children walked.
    /repo/hamt/hamt.go:537-550 *)
Definition walkFetched (w : world) (n : node) : list link * res job :=
  match dserv_get w n with
  | Ok nd =>
      match NewHamtFromDag nd with
      | Ok s => walkChildren s
      | Err e => ([], Err e)
      | Panic => ([], Panic)
      | Fuel => ([], Fuel)
      end
  | Err e => ([], Err e)
  | Panic => ([], Panic)
  | Fuel => ([], Fuel)
  end.

(** Where a worker goes on after sending children: in the loop over the shards or in
    the loop over the fetched blocks. /repo/hamt/hamt.go:510-521, 537-557 *)
Inductive cont := KShards (ss : list shard) (cs : list node) | KFetch (todo : list node).

(** State of a worker. /repo/hamt/hamt.go:508-567 *)
Inductive worker :=
| Idle                                                  (** waiting on feed, 509 *)
| Shards (ss : list shard) (cs : list node)             (** loop over the shards, 510 *)
| Emit (ls : list link) (r : res job) (k : cont)        (** in walkChildren, 511 and 547 *)
| Send (j : job) (k : cont)                             (** sending on out, 516-520 and 552-556 *)
| Visit (cs todo : list node)                           (** loop over the CIDs, 523-534 *)
| Fetch (todo : list node)                              (** receiving from GetMany, 536-557 *)
| Finish                                                (** sending on done, 559-562 *)
| Exited.
Definition resume (k : cont) : worker := match k with KShards ss cs => Shards ss cs | KFetch todo => Fetch todo end.

(** /repo/hamt/hamt.go:492-606 *)
Record walk := mkWalk {
  w_workers : list worker;
  w_next : option job;      (** next, with send = nil if there is none; 568-574 *)
  w_queue : list job;       (** todoQueue *)
  w_prog : nat;             (** inProgress *)
  w_run : bool;             (** the dispatcher loop runs; feed is closed afterwards *)
  w_seen : list node;       (** visitSet *)
  w_out : list link;        (** links received by the reader of the result channel *)
  w_cancel : bool;          (** the caller's context is cancelled *)
  w_err : option err }.     (** error of the group: the first one *)
(** errGrpCtx.Done(). /repo/hamt/hamt.go:500 *)
Definition grp_done (s : walk) : bool := w_cancel s || match w_err s with Some _ => true | None => false end.
(** The group keeps the first error (errgroup.Group.Go). /repo/hamt/hamt.go:508, 605 *)
Definition set_err (e : err) (o : option err) : option err := match o with Some x => Some x | None => Some e end.

(** Start with [n] workers. /repo/hamt/hamt.go:493-574 *)
Definition walk_start (n : nat) (root : shard) : walk :=
  mkWalk (repeat Idle n) (Some (mkJob [] [root])) [] 0 true [] [] false None.

(** Head of the queue. /repo/hamt/hamt.go:581-587 *)
Definition pop (q : list job) : option job * list job := match q with [] => (None, []) | j :: r => (Some j, r) end.
(** /repo/hamt/hamt.go:593-599 *)
Definition push (j : job) (nx : option job) (q : list job) : option job * list job :=
  match nx with None => (Some j, q) | Some x => (Some x, q ++ [j]) end.

(** One step of one goroutine; the lines of /repo/hamt/hamt.go are given per case.
    [mayc]: whether the caller may cancel. Simplification: once the context is cancelled,
    a result may still be received (line 619) any number of times, not only by workers
    that have passed line 613. *)
Inductive wstep (w : world) (mayc : bool) : walk -> walk -> Prop :=
| S_feed a b j q p seen out c e :       (* 579-587 *)
    wstep w mayc (mkWalk (a ++ Idle :: b) (Some j) q p true seen out c e)
                 (mkWalk (a ++ Shards (j_shards j) (j_cids j) :: b) (fst (pop q)) (snd (pop q)) (S p) true seen out c e)
| S_shard a b s ss cs nx q p run seen out c e :       (* 510-511 *)
    wstep w mayc (mkWalk (a ++ Shards (s :: ss) cs :: b) nx q p run seen out c e)
                 (mkWalk (a ++ Emit (fst (walkChildren s)) (snd (walkChildren s)) (KShards ss cs) :: b) nx q p run seen out c e)
| S_shards_end a b cs nx q p run seen out c e :       (* 510, 523 *)
    wstep w mayc (mkWalk (a ++ Shards [] cs :: b) nx q p run seen out c e)
                 (mkWalk (a ++ Visit cs [] :: b) nx q p run seen out c e)
| S_emit a b l ls r k nx q p run seen out c e :       (* 422-425, 608-622 *)
    wstep w mayc (mkWalk (a ++ Emit (l :: ls) r k :: b) nx q p run seen out c e)
                 (mkWalk (a ++ Emit ls r k :: b) nx q p run seen (out ++ [l]) c e)
| S_emit_drop a b l ls r k nx q p run seen out e :       (* 613-617, 620 *)
    wstep w mayc (mkWalk (a ++ Emit (l :: ls) r k :: b) nx q p run seen out true e)
                 (mkWalk (a ++ Emit ls r k :: b) nx q p run seen out true e)
| S_emit_ok a b j k nx q p run seen out c e :
    wstep w mayc (mkWalk (a ++ Emit [] (Ok j) k :: b) nx q p run seen out c e)
                 (mkWalk (a ++ Send j k :: b) nx q p run seen out c e)
| S_emit_err a b x k nx q p run seen out c e :       (* 512-514, 538-550 *)
    wstep w mayc (mkWalk (a ++ Emit [] (Err x) k :: b) nx q p run seen out c e)
                 (mkWalk (a ++ Exited :: b) nx q p run seen out c (set_err x e))
| S_out a b j k nx q p seen out c e :       (* 517, 553 with 593-599 *)
    wstep w mayc (mkWalk (a ++ Send j k :: b) nx q p true seen out c e)
                 (mkWalk (a ++ resume k :: b) (fst (push j nx q)) (snd (push j nx q)) p true seen out c e)
| S_out_cancel a b j k nx q p run seen out c e : c || match e with Some _ => true | None => false end = true ->       (* 518, 554 *)
    wstep w mayc (mkWalk (a ++ Send j k :: b) nx q p run seen out c e)
                 (mkWalk (a ++ Exited :: b) nx q p run seen out c e)
| S_visit a b n cs todo nx q p run seen out c e : existsb (node_eqb n) seen = false ->       (* 524-533 *)
    wstep w mayc (mkWalk (a ++ Visit (n :: cs) todo :: b) nx q p run seen out c e)
                 (mkWalk (a ++ Visit cs (todo ++ [n]) :: b) nx q p run (n :: seen) out c e)
| S_visit_seen a b n cs todo nx q p run seen out c e : existsb (node_eqb n) seen = true ->       (* 524-533 *)
    wstep w mayc (mkWalk (a ++ Visit (n :: cs) todo :: b) nx q p run seen out c e)
                 (mkWalk (a ++ Visit cs todo :: b) nx q p run seen out c e)
| S_visit_end a b todo nx q p run seen out c e :       (* 536 *)
    wstep w mayc (mkWalk (a ++ Visit [] todo :: b) nx q p run seen out c e)
                 (mkWalk (a ++ Fetch todo :: b) nx q p run seen out c e)
| S_fetch a b t1 n t2 nx q p run seen out c e :       (* 537-550; in any order *)
    wstep w mayc (mkWalk (a ++ Fetch (t1 ++ n :: t2) :: b) nx q p run seen out c e)
                 (mkWalk (a ++ Emit (fst (walkFetched w n)) (snd (walkFetched w n)) (KFetch (t1 ++ t2)) :: b) nx q p run seen out c e)
| S_fetch_cancel a b todo nx q p run seen out c e : c || match e with Some _ => true | None => false end = true ->       (* 538-540 *)
    wstep w mayc (mkWalk (a ++ Fetch todo :: b) nx q p run seen out c e)
                 (mkWalk (a ++ Exited :: b) nx q p run seen out c (set_err EOther e))
| S_fetch_end a b nx q p run seen out c e :
    wstep w mayc (mkWalk (a ++ Fetch [] :: b) nx q p run seen out c e)
                 (mkWalk (a ++ Finish :: b) nx q p run seen out c e)
| S_done a b nx q p seen out c e :       (* 560 with 588-592 *)
    wstep w mayc (mkWalk (a ++ Finish :: b) nx q p true seen out c e)
                 (mkWalk (a ++ Idle :: b) nx q (pred p) (negb ((pred p =? 0)%nat && match nx with None => true | Some _ => false end)) seen out c e)
| S_done_cancel a b nx q p run seen out c e : c || match e with Some _ => true | None => false end = true ->       (* 561 *)
    wstep w mayc (mkWalk (a ++ Finish :: b) nx q p run seen out c e)
                 (mkWalk (a ++ Idle :: b) nx q p run seen out c e)
| S_stop ws nx q p seen out c e : c || match e with Some _ => true | None => false end = true ->       (* 600-601 *)
    wstep w mayc (mkWalk ws nx q p true seen out c e) (mkWalk ws nx q p false seen out c e)
| S_exit a b nx q p seen out c e :       (* 509, 565, 604 *)
    wstep w mayc (mkWalk (a ++ Idle :: b) nx q p false seen out c e)
                 (mkWalk (a ++ Exited :: b) nx q p false seen out c e)
| S_cancel ws nx q p run seen out e : mayc = true ->
    wstep w mayc (mkWalk ws nx q p run seen out false e) (mkWalk ws nx q p run seen out true e).

(** Executions of /repo/hamt/hamt.go:491-606: sequences of steps. *)
Inductive wsteps (w : world) (mayc : bool) : walk -> walk -> Prop :=
| wsteps_refl s : wsteps w mayc s s
| wsteps_step s t u : wsteps w mayc s t -> wstep w mayc t u -> wsteps w mayc s u.

(** The same with the number of steps. /repo/hamt/hamt.go:491-606 *)
Inductive wsteps_n (w : world) (mayc : bool) : nat -> walk -> walk -> Prop :=
| wsteps_O s : wsteps_n w mayc 0 s s
| wsteps_S n s t u : wsteps_n w mayc n s t -> wstep w mayc t u -> wsteps_n w mayc (S n) s u.

(** All goroutines have returned. /repo/hamt/hamt.go:604-605 *)
Definition walk_over (s : walk) : Prop := Forall (fun x => x = Exited) (w_workers s) /\ w_run s = false.
(** A worker has panicked. /repo/hamt/hamt.go:508-567 *)
Definition walk_crashed (s : walk) : Prop := exists k r, In (Emit [] r k) (w_workers s) /\ (r = Panic \/ r = Fuel).
(** What EnumLinks returns: the error may get lost if the context is cancelled.
    /repo/hamt/hamt.go:390-402, 608-622 *)
Definition enum_returns (s : walk) (links : list link) (e : option err) : Prop :=
  walk_over s /\ links = w_out s /\ (e = w_err s \/ (w_cancel s = true /\ e = None)).
