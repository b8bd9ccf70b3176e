(** Model of /repo/io/directory.go.

    Go pointers: a BasicDirectory holds a *ProtoNode, which is the prefix (of the CID
    builder), the data and the links here. Size checks of a sharded directory run the
    parallel enumeration of Walk.v, so the operations of a dynamic directory are
    relations. Link sizes are those of productionLinkSize; [int] does not overflow. *)
From Verif Require Import Base Pb FSNode Dag Builder HashBits Bitfield Hamt HamtExec Walk.

(** ** Nondeterministic computations *)

(** A relation between a state, a result and the state after it: the enumeration in
    /repo/io/directory.go:523 makes the outcome depend on the schedule. *)
Definition N (S A : Type) := S -> res A -> S -> Prop.
(** A deterministic computation (/repo/io/directory.go:565, 619). *)
Definition det {S A} (m : M S A) : N S A := fun s r s' => m s = (r, s').

(** ** ProtoNode links *)

(** go-merkledag [ProtoNode.GetNodeLink]: the first link of that name.
    /repo/io/directory.go:229, 298, 315 *)
Definition GetNodeLink (name : bytes) (ls : list link) : option link := find (fun l => bytes_eqb (lname l) name) ls.
(** go-merkledag [ProtoNode.RemoveNodeLink]: all links of that name.
    /repo/io/directory.go:326 *)
Definition RemoveNodeLink (name : bytes) (ls : list link) : list link := filter (fun l => negb (bytes_eqb (lname l) name)) ls.
(** go-merkledag [ProtoNode.AddRawLink]. /repo/io/directory.go:253 *)
Definition AddRawLink (name : bytes) (l : link) (ls : list link) : list link := ls ++ [mkLink name (lsize l) (lto l)].

(** /repo/io/directory.go:87-89 *)
Definition linkSize (name : bytes) (target : node) : Z := zlen name + cid_len (node_prefix target).

(** ** BasicDirectory *)

(** /repo/io/directory.go:99-109: the node (prefix, data, links) and estimatedSize. *)
Record basic := mkBasic { b_prefix : prefix; b_data : bytes; b_links : list link; b_est : Z }.

(** /repo/io/directory.go:181-190 *)
Definition computeEstimatedSize (ls : list link) : Z := fold_left (fun z l => z + linkSize (lname l) (lto l)) ls 0.
(** /repo/io/directory.go:128-137 *)
Definition newBasicDirectoryFromNode (p : prefix) (d : bytes) (ls : list link) : basic := mkBasic p d ls (computeEstimatedSize ls).
(** /repo/io/directory.go:124-126 *)
Definition newEmptyBasicDirectory : res basic :=
  rmap (fun d => newBasicDirectoryFromNode (resolve v0prefix) d []) FolderPBData.
(** /repo/io/directory.go:207-209 *)
Definition bSetCidBuilder (b : option prefix) (d : basic) : basic := mkBasic (proto_prefix b) (b_data d) (b_links d) (b_est d).

(** /repo/io/directory.go:192-194 *)
Definition addToEstimatedSize (name : bytes) (c : node) (d : basic) : basic :=
  mkBasic (b_prefix d) (b_data d) (b_links d) (b_est d + linkSize name c).
(** /repo/io/directory.go:196-204 *)
Definition removeFromEstimatedSize (name : bytes) (c : node) (d : basic) : basic :=
  let e := b_est d - linkSize name c in
  mkBasic (b_prefix d) (b_data d) (b_links d) (if e <? 0 then computeEstimatedSize (b_links d) else e).
(** The node with other links. /repo/io/directory.go:253, 326 *)
Definition b_set_links (ls : list link) (d : basic) : basic := mkBasic (b_prefix d) (b_data d) ls (b_est d).

(** /repo/io/directory.go:310-329 *)
Definition bRemoveChild (name : bytes) : M basic unit := fun d =>
  match GetNodeLink name (b_links d) with
  | None => (Err ENotExist, d)
  | Some l =>
      let d1 := removeFromEstimatedSize (lname l) (lto l) d in
      (Ok tt, b_set_links (RemoveNodeLink name (b_links d1)) d1)
  end.
(** /repo/io/directory.go:245-259 *)
Definition addLinkChild (name : bytes) (l : link) : M basic unit := fun d =>
  match bRemoveChild name d with
  | (Ok _, d1) | (Err ENotExist, d1) => (Ok tt, addToEstimatedSize name (lto l) (b_set_links (AddRawLink name l (b_links d1)) d1))
  | (r, d1) => (r, d1)
  end.
(** /repo/io/directory.go:213-220 *)
Definition bAddChild (name : bytes) (nd : node) : M basic unit := addLinkChild name (make_link [] nd).
(** /repo/io/directory.go:297-307 *)
Definition bFind (w : world) (name : bytes) (d : basic) : res node :=
  match GetNodeLink name (b_links d) with None => Err ENotExist | Some l => dserv_get w (lto l) end.

(** ** HAMTDirectory *)

(** /repo/io/directory.go:115-122 *)
Record hamtdir := mkHD { h_shard : shard; h_change : Z }.

(** /repo/io/directory.go:150-153: the wrapped directory of a DynamicDirectory. *)
Inductive directory := DBasic (b : basic) | DHamt (h : hamtdir).

(** /repo/io/directory.go:143-145, with SetCidBuilder called first. *)
Definition NewDirectory (b : option prefix) : res directory :=
  rmap (fun d => DBasic (bSetCidBuilder b d)) newEmptyBasicDirectory.
(** /repo/io/directory.go:156-179 *)
Definition NewDirectoryFromNode (n : node) : res directory :=
  match n with
  | NRaw _ _ => Err ENotADir
  | NProto p d ls =>
      let? fsn := FSNodeFromBytes d in
      if getType fsn =? TDirectory then Ok (DBasic (newBasicDirectoryFromNode p d ls))
      else if getType fsn =? THAMTShard then rmap (fun s => DHamt (mkHD s 0)) (NewHamtFromDag n)
      else Err ENotADir
  end.

(** SetCidBuilder of the wrapped directory. /repo/io/directory.go:207-209, 364-366 *)
Definition dSetCidBuilder (b : option prefix) (d : directory) : directory :=
  match d with DBasic x => DBasic (bSetCidBuilder b x) | DHamt h => DHamt (mkHD (SetCidBuilder b (h_shard h)) (h_change h)) end.
(** GetCidBuilder of the wrapped directory: go-merkledag's node never answers nil, a shard
    may. /repo/io/directory.go:337-339, 428-430; /repo/hamt/hamt.go:182-184 *)
Definition dGetCidBuilder (d : directory) : option prefix :=
  match d with DBasic x => Some (b_prefix x) | DHamt h => s_builder (h_shard h) end.

Section Hash.
  (** The hash function of package hamt, and DefaultShardWidth
      (/repo/io/directory.go:36). *)
  Variables (hash : bytes -> bytes) (width : Z).

  (** Links added one after the other. /repo/io/directory.go:353-358 *)
  Fixpoint setLinks (w : world) (ls : list link) : M shard unit :=
    match ls with
    | [] => ret tt
    | l :: r => do _ <- SetLink hash w (lname l) l ;; setLinks w r
    end.
  (** /repo/io/directory.go:342-361 *)
  Definition switchToSharding (w : world) (d : basic) : res hamtdir :=
    let? s := new_dir width (Some (b_prefix d)) in
    match setLinks w (b_links d) s with
    | (Ok _, s1) => Ok (mkHD s1 0)
    | (Err e, _) => Err e
    | (Panic, _) => Panic
    | (Fuel, _) => Fuel
    end.

  (** /repo/io/directory.go:369-380, 457-463 *)
  Definition hAddChild (name : bytes) (n : node) : M (hamtdir * world) unit := fun st =>
    let (h, w) := st in
    match Swap hash name n (h_shard h, w) with
    | (Ok old, (s, w1)) =>
        let c := match old with Some l => h_change h - linkSize (lname l) (lto l) | None => h_change h end in
        (Ok tt, (mkHD s (c + linkSize name (seal n)), w1))
    | (Err e, (s, w1)) => (Err e, (mkHD s (h_change h), w1))
    | (Panic, (s, w1)) => (Panic, (mkHD s (h_change h), w1))
    | (Fuel, (s, w1)) => (Fuel, (mkHD s (h_change h), w1))
    end.
  (** /repo/io/directory.go:409-420 *)
  Definition hRemoveChild (w : world) (name : bytes) : M hamtdir unit := fun h =>
    match Take hash w name (h_shard h) with
    | (Ok old, s) =>
        (Ok tt, mkHD s (match old with Some l => h_change h - linkSize (lname l) (lto l) | None => h_change h end))
    | (Err e, s) => (Err e, mkHD s (h_change h))
    | (Panic, s) => (Panic, mkHD s (h_change h))
    | (Fuel, s) => (Fuel, mkHD s (h_change h))
    end.
  (** /repo/io/directory.go:399-406 with go-ipld-format [Link.GetNode]; a nil link panics. *)
  Definition hFind (w : world) (name : bytes) : M hamtdir node := fun h =>
    match Find hash w name (h_shard h) with
    | (Ok (Some l), s) => (dserv_get w (lto l), mkHD s (h_change h))
    | (Ok None, s) => (Panic, mkHD s (h_change h))
    | (Err e, s) => (Err e, mkHD s (h_change h))
    | (Panic, s) => (Panic, mkHD s (h_change h))
    | (Fuel, s) => (Fuel, mkHD s (h_change h))
    end.

  (** Links added to a basic directory one after the other. /repo/io/directory.go:437-443 *)
  Fixpoint addLinks (ls : list link) : M basic unit :=
    match ls with
    | [] => ret tt
    | l :: r => do _ <- addLinkChild (lname l) l ;; addLinks r
    end.
  (** The callback of switchToBasic, when it has been given the links [acc] before.
      /repo/io/directory.go:437-443 *)
  Definition switch_cb (b0 : basic) : callback := fun acc l =>
    match addLinkChild (lname l) l (snd (addLinks (rev acc) b0)) with (Err e, _) => Some e | _ => None end.
  (** /repo/io/directory.go:433-455 *)
  Definition switchToBasic (w : world) : M hamtdir basic := fun h =>
    match newEmptyBasicDirectory with
    | Ok b =>
        let b0 := bSetCidBuilder (s_builder (h_shard h)) b in
        match ForEachLink w (switch_cb b0) (h_shard h, []) with
        | (Ok _, (s, acc)) => (Ok (snd (addLinks (rev acc) b0)), mkHD s (h_change h))
        | (Err e, (s, _)) => (Err e, mkHD s (h_change h))
        | (Panic, (s, _)) => (Panic, mkHD s (h_change h))
        | (Fuel, (s, _)) => (Fuel, mkHD s (h_change h))
        end
    | Err e => (Err e, h)
    | Panic => (Panic, h)
    | Fuel => (Fuel, h)
    end.

  (** Sum of the sizes of links. /repo/io/directory.go:528 *)
  Definition linksSize (ls : list link) : Z := sumZ (map (fun l => linkSize (lname l) (lto l)) ls).

  (** The links [seen] stay below the threshold at every moment.
      /repo/io/directory.go:523-533 *)
  Definition stays_below (T change : Z) (seen : list link) : Prop :=
    forall a b, seen = a ++ b -> a <> [] -> linksSize a + change < T.

  (** /repo/io/directory.go:509-537: possible results. The enumeration runs with 32
      workers (/repo/hamt/hamt.go:492); [mayc]: the caller may cancel the context. *)
  Inductive sizeBelowThreshold (w : world) (mayc : bool) (T : Z) (s : shard) (change : Z) : res bool -> Prop :=
  | SB_off : T = 0 -> sizeBelowThreshold w mayc T s change Panic
  | SB_above t a l b : T <> 0 -> wsteps w mayc (walk_start 32 s) t -> w_out t = a ++ l :: b ->
      stays_below T change a -> T <= linksSize (a ++ [l]) + change -> sizeBelowThreshold w mayc T s change (Ok false)
  | SB_below t links : T <> 0 -> wsteps w mayc (walk_start 32 s) t -> enum_returns t links None ->
      stays_below T change links -> sizeBelowThreshold w mayc T s change (Ok true)
  | SB_err t links e : T <> 0 -> wsteps w mayc (walk_start 32 s) t -> enum_returns t links (Some e) ->
      stays_below T change links -> sizeBelowThreshold w mayc T s change (Err e)
  | SB_panic t : T <> 0 -> wsteps w mayc (walk_start 32 s) t -> walk_crashed t -> sizeBelowThreshold w mayc T s change Panic.

  (** Size of an optional new entry. /repo/io/directory.go:236-238, 490-492 *)
  Definition newSize (name : bytes) (n : option node) : Z :=
    match n with Some n => linkSize name (seal n) | None => 0 end.

  (** /repo/io/directory.go:222-241 *)
  Definition needsToSwitchToHAMTDir (T : Z) (name : bytes) (n : option node) (d : basic) : bool :=
    if T =? 0 then false
    else
      let old := match GetNodeLink name (b_links d) with Some l => linkSize name (lto l) | None => 0 end in
      T <=? b_est d + (newSize name n - old).

  (** /repo/io/directory.go:471-501 *)
  Definition needsToSwitchToBasicDir (w : world) (mayc : bool) (T : Z) (name : bytes) (n : option node) : N hamtdir bool := fun h r h' =>
    if T =? 0 then r = Ok false /\ h' = h
    else
      let decide old s :=
        let change := newSize name n - old in
        h' = mkHD s (h_change h) /\
        if 0 <=? h_change h + change then r = Ok false else sizeBelowThreshold w mayc T s change r in
      match Find hash w name (h_shard h) with
      | (Ok (Some l), s) => decide (linkSize name (lto l)) s
      | (Err ENotExist, s) => decide 0 s
      | (Ok None, s) => r = Panic /\ h' = mkHD s (h_change h)
      | (Err e, s) => r = Err e /\ h' = mkHD s (h_change h)
      | (Panic, s) => r = Panic /\ h' = mkHD s (h_change h)
      | (Fuel, s) => r = Fuel /\ h' = mkHD s (h_change h)
      end.

  (** ** DynamicDirectory *)

  (** Computations on one of the two representations, as computations on the dynamic
      directory. /repo/io/directory.go:544-546 *)
  Definition on_hamt {A} (w : world) (m : N hamtdir A) (h : hamtdir) (k : A -> hamtdir -> res unit -> directory * world -> Prop) (r : res unit) (st : directory * world) : Prop :=
    exists ra h1, m h ra h1 /\
      match ra with
      | Ok a => k a h1 r st
      | Err e => r = Err e /\ st = (DHamt h1, w)
      | Panic => r = Panic /\ st = (DHamt h1, w)
      | Fuel => r = Fuel /\ st = (DHamt h1, w)
      end.

  (** /repo/io/directory.go:552-598 *)
  Definition dAddChild (mayc : bool) (T : Z) (name : bytes) (n : node) : N (directory * world) unit := fun st r st' =>
    let (d, w) := st in
    match d with
    | DHamt h =>
        on_hamt w (needsToSwitchToBasicDir w mayc T name (Some n)) h (fun sw h1 r st' =>
          if sw : bool then
            on_hamt w (det (switchToBasic w)) h1 (fun b h2 r st' =>
              match bAddChild name n b with
              | (Ok _, b1) => r = Ok tt /\ st' = (DBasic b1, w)
              | (e, _) => r = e /\ st' = (DHamt h2, w)
              end) r st'
          else match hAddChild name n (h1, w) with (r1, (h2, w1)) => r = r1 /\ st' = (DHamt h2, w1) end) r st'
    | DBasic b =>
        if needsToSwitchToHAMTDir T name (Some n) b then
          match switchToSharding w b with
          | Ok h =>
              match hAddChild name n (h, w) with
              | (Ok _, (h1, w1)) => r = Ok tt /\ st' = (DHamt h1, w1)
              | (e, (_, w1)) => r = e /\ st' = (DBasic b, w1)
              end
          | Err e => r = Err e /\ st' = (DBasic b, w)
          | Panic => r = Panic /\ st' = (DBasic b, w)
          | Fuel => r = Fuel /\ st' = (DBasic b, w)
          end
        else match bAddChild name n b with (r1, b1) => r = r1 /\ st' = (DBasic b1, w) end
    end.

  (** /repo/io/directory.go:603-629 *)
  Definition dRemoveChild (mayc : bool) (T : Z) (name : bytes) : N (directory * world) unit := fun st r st' =>
    let (d, w) := st in
    match d with
    | DBasic b => match bRemoveChild name b with (r1, b1) => r = r1 /\ st' = (DBasic b1, w) end
    | DHamt h =>
        on_hamt w (needsToSwitchToBasicDir w mayc T name None) h (fun sw h1 r st' =>
          if sw : bool then
            on_hamt w (det (switchToBasic w)) h1 (fun b h2 r st' =>
              match bRemoveChild name b with
              | (Ok _, b1) => r = Ok tt /\ st' = (DBasic b1, w)
              | (e, _) => r = e /\ st' = (DHamt h2, w)
              end) r st'
          else match hRemoveChild w name h1 with (r1, h2) => r = r1 /\ st' = (DHamt h2, w) end) r st'
    end.

  (** Find. /repo/io/directory.go:297-307, 399-406 *)
  Definition dFind (name : bytes) : M (directory * world) node := fun st =>
    let (d, w) := st in
    match d with
    | DBasic b => (bFind w name b, st)
    | DHamt h => let (r, h1) := hFind w name h in (r, (DHamt h1, w))
    end.

  (** Links. /repo/io/directory.go:292-294, 394-396; the sharded form enumerates in
      parallel (/repo/hamt/hamt.go:390-402). *)
  Inductive dLinks (mayc : bool) : N (directory * world) (list link) :=
  | DL_basic b w : dLinks mayc (DBasic b, w) (Ok (b_links b)) (DBasic b, w)
  | DL_hamt h w t links : wsteps w mayc (walk_start 32 (h_shard h)) t -> enum_returns t links None ->
      dLinks mayc (DHamt h, w) (Ok links) (DHamt h, w)
  | DL_err h w t links e : wsteps w mayc (walk_start 32 (h_shard h)) t -> enum_returns t links (Some e) ->
      dLinks mayc (DHamt h, w) (Err e) (DHamt h, w)
  | DL_panic h w t : wsteps w mayc (walk_start 32 (h_shard h)) t -> walk_crashed t ->
      dLinks mayc (DHamt h, w) Panic (DHamt h, w).

  (** Callbacks on the links of a basic directory. /repo/io/directory.go:282-289 *)
  Fixpoint bForEachLink (cb : callback) (acc : list link) (ls : list link) : res unit * list link :=
    match ls with
    | [] => (Ok tt, acc)
    | l :: r => match cb acc l with Some e => (Err e, l :: acc) | None => bForEachLink cb (l :: acc) r end
    end.
  (** The links the callback has seen are returned with the result.
      /repo/io/directory.go:282-289, 383-385 *)
  Definition dEach (cb : callback) (st : directory * world) : (res unit * list link) * (directory * world) :=
    let (d, w) := st in
    match d with
    | DBasic b => (bForEachLink cb [] (b_links b), st)
    | DHamt h => match ForEachLink w cb (h_shard h, []) with (r, (s, acc)) => ((r, acc), (DHamt (mkHD s (h_change h)), w)) end
    end.

  (** GetNode. /repo/io/directory.go:332-334, 423-425 *)
  Definition dGetNode : M (directory * world) node := fun st =>
    let (d, w) := st in
    match d with
    | DBasic b => (Ok (NProto (b_prefix b) (b_data b) (b_links b)), st)
    | DHamt h => let (r, w1) := Node (h_shard h) w in (r, (d, w1))
    end.
  (** Encoding the node returned by GetNode sorts the links of the directory's own node
      (go-merkledag [ProtoNode.EncodeProtobuf]). /repo/io/directory.go:332-334 *)
  Definition dEncoded (d : directory) : directory :=
    match d with DBasic b => DBasic (b_set_links (lsort (b_links b)) b) | DHamt h => DHamt h end.
End Hash.
