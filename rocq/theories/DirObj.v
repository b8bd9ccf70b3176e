(** Model of /repo/io/directory.go with the ProtoNode objects of directories.

    A BasicDirectory keeps a pointer to a ProtoNode and changes it in place; GetNode returns
    this pointer (/repo/io/directory.go:332-334). Here the objects are cells of a list and the
    pointers are their indices. A cell holds the value of the object: prefix of the CID
    builder, data and links. Link objects are values, as in Directory.v: no function of this
    file assigns to a field of one. Sharded directories are values as in Directory.v; their
    objects are the subject of HeapHamt.v. Operations that only read (Find, Links, ForEachLink)
    are those of Directory.v on [dview]. *)
From Verif Require Import Base Pb FSNode Dag Builder HashBits Bitfield Hamt HamtExec Walk Directory.

(** The objects. /repo/io/directory.go:99-109 *)
Definition heap := list node.
(** The wrapped directory: a BasicDirectory is the pointer to its node and the estimated
    size. /repo/io/directory.go:99-122 *)
Inductive odir := OBasic (p : nat) (est : Z) | OHamt (h : hamtdir).

(** The fields of the node a BasicDirectory points to. /repo/io/directory.go:100 *)
Definition bview (hp : heap) (p : nat) (est : Z) : option basic :=
  match nth_error hp p with Some (NProto q d ls) => Some (mkBasic q d ls est) | _ => None end.
(** The directory as a value of Directory.v. /repo/io/directory.go:544-546 *)
Definition dview (hp : heap) (d : odir) : option directory :=
  match d with OBasic p est => option_map DBasic (bview hp p est) | OHamt h => Some (DHamt h) end.

(** Assignments to the fields of a ProtoNode: go-merkledag's AddRawLink and RemoveNodeLink
    set its links, SetCidBuilder its prefix.
    /repo/io/directory.go:208, 253, 326 *)
Definition assign_links (p : nat) (ls : list link) (hp : heap) : heap :=
  match nth_error hp p with Some (NProto q d _) => set_nth p (NProto q d ls) hp | _ => hp end.
Definition assign_prefix (p : nat) (q : prefix) (hp : heap) : heap :=
  match nth_error hp p with Some (NProto _ d ls) => set_nth p (NProto q d ls) hp | _ => hp end.
(** go-merkledag's EncodeProtobuf, called by Cid, Size and RawData, sorts the links of the
    node in place. /repo/io/directory.go:214, 237, 491 *)
Definition encode (p : nat) (hp : heap) : heap :=
  match nth_error hp p with Some n => set_nth p (seal n) hp | None => hp end.
(** The links of the node; a nil pointer panics. /repo/io/directory.go:253, 315 *)
Definition links_at (p : nat) (hp : heap) : res (list link) :=
  match nth_error hp p with Some (NProto _ _ ls) => Ok ls | _ => Panic end.

(** /repo/io/directory.go:310-329, with removeFromEstimatedSize, 196-204 *)
Definition oRemoveChild (name : bytes) (p : nat) (est : Z) (hp : heap) : res unit * (Z * heap) :=
  match links_at p hp with
  | Ok ls =>
      match GetNodeLink name ls with
      | None => (Err ENotExist, (est, hp))
      | Some l =>
          let e := est - linkSize (lname l) (lto l) in
          let est1 := if e <? 0 then computeEstimatedSize ls else e in
          (Ok tt, (est1, assign_links p (RemoveNodeLink name ls) hp))
      end
  | _ => (Panic, (est, hp))
  end.
(** /repo/io/directory.go:245-259 *)
Definition oAddLinkChild (name : bytes) (l : link) (p : nat) (est : Z) (hp : heap) : res unit * (Z * heap) :=
  match oRemoveChild name p est hp with
  | (Ok _, (est1, hp1)) | (Err ENotExist, (est1, hp1)) =>
      match links_at p hp1 with
      | Ok ls => (Ok tt, (est1 + linkSize name (lto l), assign_links p (AddRawLink name l ls) hp1))
      | _ => (Panic, (est1, hp1))
      end
  | (r, (est1, hp1)) => (r, (est1, hp1))
  end.
(** /repo/io/directory.go:213-220 *)
Definition oAddChild (name : bytes) (n : node) (p : nat) (est : Z) (hp : heap) : res unit * (Z * heap) :=
  oAddLinkChild name (make_link [] n) p est hp.

Section Hash.
  (** The hash function of package hamt, and DefaultShardWidth
      (/repo/io/directory.go:36). *)
  Variables (hash : bytes -> bytes) (width : Z).

  (** Links added to a basic directory one after the other. /repo/io/directory.go:437-443 *)
  Fixpoint oAddLinks (ls : list link) (p : nat) (est : Z) (hp : heap) : Z * heap :=
    match ls with
    | [] => (est, hp)
    | l :: r => let (est1, hp1) := snd (oAddLinkChild (lname l) l p est hp) in oAddLinks r p est1 hp1
    end.
  (** /repo/io/directory.go:433-455. The node of the new directory is a new object. The
      callback is that of Directory.v (simplification: whether it fails is decided on the
      value; the links are added to the object when the enumeration is over, and not at all
      if it fails, as the new object is lost then). *)
  Definition oSwitchToBasic (w : world) (h : hamtdir) (hp : heap) : res (nat * Z) * hamtdir * heap :=
    match newEmptyBasicDirectory with
    | Ok b =>
        let p := length hp in
        let hp1 := assign_prefix p (proto_prefix (s_builder (h_shard h))) (hp ++ [NProto (b_prefix b) (b_data b) (b_links b)]) in
        match ForEachLink w (switch_cb (bSetCidBuilder (s_builder (h_shard h)) b)) (h_shard h, []) with
        | (Ok _, (s, acc)) => let (est, hp2) := oAddLinks (rev acc) p (b_est b) hp1 in (Ok (p, est), mkHD s (h_change h), hp2)
        | (Err e, (s, _)) => (Err e, mkHD s (h_change h), hp1)
        | (Panic, (s, _)) => (Panic, mkHD s (h_change h), hp1)
        | (Fuel, (s, _)) => (Fuel, mkHD s (h_change h), hp1)
        end
    | Err e => (Err e, h, hp)
    | Panic => (Panic, h, hp)
    | Fuel => (Fuel, h, hp)
    end.

  (** What follows the decision to shrink, with the operation [op] of BasicDirectory.
      /repo/io/directory.go:563-574, 618-628 *)
  Definition shrink (w : world) (op : nat -> Z -> heap -> res unit * (Z * heap)) (h : hamtdir) (hp : heap) : res unit * (odir * heap) :=
    match oSwitchToBasic w h hp with
    | (Ok (p, est), h1, hp1) =>
        match op p est hp1 with
        | (Ok _, (est1, hp2)) => (Ok tt, (OBasic p est1, hp2))
        | (e, (_, hp2)) => (e, (OHamt h1, hp2))
        end
    | (Err e, h1, hp1) => (Err e, (OHamt h1, hp1))
    | (Panic, h1, hp1) => (Panic, (OHamt h1, hp1))
    | (Fuel, h1, hp1) => (Fuel, (OHamt h1, hp1))
    end.

  (** /repo/io/directory.go:552-598 *)
  Definition oDynAdd (mayc : bool) (T : Z) (name : bytes) (n : node) (d : odir) (hp : heap) (w : world) (r : res unit) (st' : odir * heap * world) : Prop :=
    match d with
    | OHamt h =>
        exists ra h1, needsToSwitchToBasicDir hash w mayc T name (Some n) h ra h1 /\
          match ra with
          | Ok true => match shrink w (oAddChild name n) h1 hp with (r1, (d1, hp1)) => r = r1 /\ st' = (d1, hp1, w) end
          | Ok false => match hAddChild hash name n (h1, w) with (r1, (h2, w1)) => r = r1 /\ st' = (OHamt h2, hp, w1) end
          | Err e => r = Err e /\ st' = (OHamt h1, hp, w)
          | Panic => r = Panic /\ st' = (OHamt h1, hp, w)
          | Fuel => r = Fuel /\ st' = (OHamt h1, hp, w)
          end
    | OBasic p est =>
        match bview hp p est with
        | None => r = Panic /\ st' = (d, hp, w)
        | Some b =>
            if needsToSwitchToHAMTDir T name (Some n) b then
              match switchToSharding hash width w b with
              | Ok h =>
                  match hAddChild hash name n (h, w) with
                  | (Ok _, (h1, w1)) => r = Ok tt /\ st' = (OHamt h1, hp, w1)
                  | (e, (_, w1)) => r = e /\ st' = (d, hp, w1)
                  end
              | Err e => r = Err e /\ st' = (d, hp, w)
              | Panic => r = Panic /\ st' = (d, hp, w)
              | Fuel => r = Fuel /\ st' = (d, hp, w)
              end
            else match oAddChild name n p est hp with (r1, (est1, hp1)) => r = r1 /\ st' = (OBasic p est1, hp1, w) end
        end
    end.
  (** /repo/io/directory.go:603-629 *)
  Definition oDynRemove (mayc : bool) (T : Z) (name : bytes) (d : odir) (hp : heap) (w : world) (r : res unit) (st' : odir * heap * world) : Prop :=
    match d with
    | OBasic p est => match oRemoveChild name p est hp with (r1, (est1, hp1)) => r = r1 /\ st' = (OBasic p est1, hp1, w) end
    | OHamt h =>
        exists ra h1, needsToSwitchToBasicDir hash w mayc T name None h ra h1 /\
          match ra with
          | Ok true => match shrink w (oRemoveChild name) h1 hp with (r1, (d1, hp1)) => r = r1 /\ st' = (d1, hp1, w) end
          | Ok false => match hRemoveChild hash w name h1 with (r1, h2) => r = r1 /\ st' = (OHamt h2, hp, w) end
          | Err e => r = Err e /\ st' = (OHamt h1, hp, w)
          | Panic => r = Panic /\ st' = (OHamt h1, hp, w)
          | Fuel => r = Fuel /\ st' = (OHamt h1, hp, w)
          end
    end.

  (** ** Programs with several directories and nodes *)

  (** What a program can do; directories and nodes are named by their indices.
      /repo/io/directory.go:46-80, 143-179 *)
  Inductive oop :=
  | ONode (n : node)                          (** makes or fetches a node object *)
  | OEncode (a : nat)                         (** Cid, Size or RawData of a node *)
  | OEdit (a : nat) (q : prefix) (d : bytes) (ls : list link)  (** changes a ProtoNode: SetCidBuilder, SetData, SetLinks, ... *)
  | ONew (b : option prefix)                  (** NewDirectory, SetCidBuilder *)
  | OLoad (a : nat)                           (** NewDirectoryFromNode *)
  | OBuilder (i : nat) (b : option prefix)    (** SetCidBuilder *)
  | OAdd (i : nat) (T : Z) (k : bytes) (a : nat)   (** AddChild, with the threshold at that time *)
  | ORemove (i : nat) (T : Z) (k : bytes)     (** RemoveChild *)
  | OGet (i : nat).                           (** GetNode *)
  (** Results: a new directory, a node object, or nothing. /repo/io/directory.go:46-80 *)
  Inductive oval := OUnit | ODir (i : nat) | ORef (a : nat).

  (** The state of a program: node objects, directories (/repo/io/directory.go:544-546) and
      the DAG service. *)
  Record obj := mkObj { o_nodes : heap; o_dirs : list odir; o_world : world }.

  (** One call. A node given to AddChild is encoded (/repo/io/directory.go:214, 237, 491 and
      /repo/hamt/hamt.go:279-296); simplification: also if the size check fails before it gets
      there. Copy makes a new object with the same fields (/repo/io/directory.go:169); Node of
      a shard returns a new object (/repo/hamt/hamt.go:187-235). *)
  Definition oexec (mayc : bool) (op : oop) (st : obj) (r : res oval) (st' : obj) : Prop :=
    let hp := o_nodes st in let ds := o_dirs st in let w := o_world st in
    match op with
    | ONode n => r = Ok (ORef (length hp)) /\ st' = mkObj (hp ++ [n]) ds w
    | OEncode a => r = Ok OUnit /\ st' = mkObj (encode a hp) ds w
    | OEdit a q d ls =>
        match nth_error hp a with
        | Some (NProto _ _ _) => r = Ok OUnit /\ st' = mkObj (set_nth a (NProto q d ls) hp) ds w
        | _ => r = Panic /\ st' = st
        end
    | ONew b =>
        match newEmptyBasicDirectory with
        | Ok x =>
            let p := length hp in
            r = Ok (ODir (length ds)) /\
            st' = mkObj (assign_prefix p (proto_prefix b) (hp ++ [NProto (b_prefix x) (b_data x) (b_links x)])) (ds ++ [OBasic p (b_est x)]) w
        | _ => r = Panic /\ st' = st
        end
    | OLoad a =>
        match nth_error hp a with
        | Some n =>
            match NewDirectoryFromNode n with
            | Ok (DBasic b) => r = Ok (ODir (length ds)) /\ st' = mkObj (hp ++ [NProto (b_prefix b) (b_data b) (b_links b)]) (ds ++ [OBasic (length hp) (b_est b)]) w
            | Ok (DHamt h) => r = Ok (ODir (length ds)) /\ st' = mkObj hp (ds ++ [OHamt h]) w
            | Err e => r = Err e /\ st' = st
            | Panic => r = Panic /\ st' = st
            | Fuel => r = Fuel /\ st' = st
            end
        | None => r = Panic /\ st' = st
        end
    | OBuilder i b =>
        match nth_error ds i with
        | Some (OBasic p est) => r = Ok OUnit /\ st' = mkObj (assign_prefix p (proto_prefix b) hp) ds w
        | Some (OHamt h) => r = Ok OUnit /\ st' = mkObj hp (set_nth i (OHamt (mkHD (SetCidBuilder b (h_shard h)) (h_change h))) ds) w
        | None => r = Panic /\ st' = st
        end
    | OAdd i T k a =>
        match nth_error ds i, nth_error hp a with
        | Some d, Some n =>
            exists r0 d' hp' w', oDynAdd mayc T k n d (encode a hp) w r0 (d', hp', w') /\
              r = rmap (fun _ => OUnit) r0 /\ st' = mkObj hp' (set_nth i d' ds) w'
        | _, _ => r = Panic /\ st' = st
        end
    | ORemove i T k =>
        match nth_error ds i with
        | Some d =>
            exists r0 d' hp' w', oDynRemove mayc T k d hp w r0 (d', hp', w') /\
              r = rmap (fun _ => OUnit) r0 /\ st' = mkObj hp' (set_nth i d' ds) w'
        | None => r = Panic /\ st' = st
        end
    | OGet i =>
        match nth_error ds i with
        | Some (OBasic p _) => r = Ok (ORef p) /\ st' = st
        | Some (OHamt h) =>
            match Node (h_shard h) w with
            | (Ok n, w1) => r = Ok (ORef (length hp)) /\ st' = mkObj (hp ++ [n]) ds w1
            | (Err e, w1) => r = Err e /\ st' = mkObj hp ds w1
            | (Panic, w1) => r = Panic /\ st' = mkObj hp ds w1
            | (Fuel, w1) => r = Fuel /\ st' = mkObj hp ds w1
            end
        | None => r = Panic /\ st' = st
        end
    end.

  (** A program: calls, their results, and the state after them.
      /repo/io/directory.go:46-80 *)
  Inductive orun (mayc : bool) : obj -> list oop -> list (res oval) -> obj -> Prop :=
  | or_nil st : orun mayc st [] [] st
  | or_cons op st r st1 ops rs st2 : oexec mayc op st r st1 -> orun mayc st1 ops rs st2 -> orun mayc st (op :: ops) (r :: rs) st2.
End Hash.
