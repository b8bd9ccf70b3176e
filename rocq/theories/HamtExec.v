(** Running histories of operations on the model of the sharded directory. *)
From Verif Require Import Base Pb FSNode Dag Builder HashBits Bitfield SpecHash Hamt SpecHamt.

(** Contents of a link. *)
Definition lentry (l : link) : dentry := (lsize l, lto l).
(** A link as the name, size and target a callback sees. *)
Definition named (l : link) : bytes * dentry := (lname l, lentry l).

Section Exec.
  Variable hash : bytes -> bytes.

  (** One operation on the shard and the DAG service. Each case calls the function of
      that name in Hamt.v; [HReload] is /repo/hamt/hamt_test.go:119-124. *)
  Definition hexec (op : hop) (sw : shard * world) : res hval * (shard * world) :=
    let (s, w) := sw in
    match op with
    | HSet k n => let (r, sw') := Set_ hash k n (s, w) in (rmap (fun _ => VUnit) r, sw')
    | HSetLink k l => let (r, s') := SetLink hash w k l s in (rmap (fun _ => VUnit) r, (s', w))
    | HSwap k n => let (r, sw') := Swap hash k n (s, w) in (rmap (fun o => VOld (option_map lentry o)) r, sw')
    | HRemove k => let (r, s') := Remove hash w k s in (rmap (fun _ => VUnit) r, (s', w))
    | HTake k => let (r, s') := Take hash w k s in (rmap (fun o => VOld (option_map lentry o)) r, (s', w))
    | HFind k =>
        let (r, s') := Find hash w k s in
        (match r with Ok (Some l) => Ok (VEntry (lentry l)) | Ok None => Panic | Err e => Err e | Panic => Panic | Fuel => Fuel end, (s', w))
    | HEach => let '(r, (s', acc)) := ForEachLink w (fun _ _ => None) (s, []) in (rmap (fun _ => VList (map named (rev acc))) r, (s', w))
    | HNode => let (r, w') := Node s w in (rmap VNode r, (s, w'))
    | HReload =>
        match Node s w with
        | (Ok n, w') => match NewHamtFromDag n with
                        | Ok s' => (Ok VUnit, (s', w'))
                        | Err e => (Err e, (s, w'))
                        | Panic => (Panic, (s, w'))
                        | Fuel => (Fuel, (s, w'))
                        end
        | (Err e, w') => (Err e, (s, w'))
        | (Panic, w') => (Panic, (s, w'))
        | (Fuel, w') => (Fuel, (s, w'))
        end
    end.

  (** Did an Add call made between two worlds fail? *)
  Definition add_failedb (w w' : world) : bool :=
    existsb (fun n => negb (w_addok w n)) (seq (w_calls w) (w_calls w' - w_calls w)).

  Fixpoint hrun (ops : list hop) (sw : shard * world) : list hobs * (shard * world) :=
    match ops with
    | [] => ([], sw)
    | op :: r =>
        let (v, sw1) := hexec op sw in
        let (os, sw2) := hrun r sw1 in
        (mkObs op (add_failedb (snd sw) (snd sw1)) v :: os, sw2)
    end.

  (** A new directory. /repo/hamt/hamt.go:94-96, 177-179 *)
  Definition new_dir (W : Z) (b : option prefix) : res shard := rmap (SetCidBuilder b) (NewShard W).

  (** The directory [s], reached from a new one by some history that leaves the
      contents [d]. *)
  Definition reached (W : Z) (b : option prefix) (s : shard) (w : world) (d : dir) : Prop :=
    exists s0 w0 ops h, new_dir W b = Ok s0 /\ Forall (fun op => hname op <> Some []) ops /\
      hrun ops (s0, w0) = (h, (s, w)) /\ d = contents dempty h.
End Exec.

(** How many bits of an [n] byte hash the slots of a path can use. *)
Definition usable (n : nat) (W : Z) : Z := 8 * Z.of_nat n / Z.log2 W * Z.log2 W.
(** No operation uses the empty name. *)
Definition named_ops (ops : list hop) : Prop := Forall (fun op => hname op <> Some []) ops.

