(** Programs that use sharded directories, run twice: with objects (HeapHamt.v) and with
    values (Hamt.v). With values there is nothing that could be shared. *)
From Verif Require Import Base Pb FSNode Dag Builder HashBits Bitfield Hamt HeapHamt.

(** How the program got a link object: it made it, it got it from Swap or Take, from Find,
    or in the callback of ForEachLink. *)
Inductive source := Made | Taken | Found (name : bytes) | Walked.
(** Directories, nodes and links are named by the order in which the program got them. *)
Inductive hop :=
| HMakeLink (l : link)                       (* a new Link object *)
| HDecode (p : prefix) (d : bytes) (ls : list link)   (* a node read from the store *)
| HNewShard (size : Z) (b : option prefix)
| HFromDag (n : nat)                         (* NewHamtFromDag(node n) *)
| HBuilder (d : nat) (b : option prefix)     (* SetCidBuilder *)
| HSetL (d : nat) (name : bytes) (l : nat)   (* SetLink(name, link l) *)
| HSwapN (d : nat) (name : bytes) (nd : node)
| HTakeN (d : nat) (name : bytes)
| HFindN (d : nat) (name : bytes)
| HEach (d : nat) (cb : callback)
| HToNode (d : nat)                          (* Node() *)
| HReadLink (l : nat)                        (* look at size and target of link l *)
| HReadNode (n : nat).                       (* look at node n *)
(** What the program sees. *)
Inductive obs := SBad | SOk | SErr (e : err) | SPanic | SFuel | SNoLink | SLnk (size : Z) (target : node) | SNode (n : node) | SWalk (e : option err) (ls : list link).
Definition view (l : link) : obs := SLnk (lsize l) (lto l).

Definition onode : Type := prefix * bytes * list laddr.
Record ostate := mkO { o_h : heap; o_w : world; o_dirs : list saddr; o_nodes : list onode; o_links : list (laddr * source) }.
Record vstate := mkV { v_w : world; v_dirs : list shard; v_nodes : list node; v_links : list link }.

Fixpoint reads (h : heap) (las : list laddr) : option (list link) :=
  match las with
  | [] => Some []
  | la :: r => match nth_error (h_links h) la, reads h r with Some l, Some ls => Some (l :: ls) | _, _ => None end
  end.
(** The callback sees the links it is given as they are then. *)
Definition hcb_of (cb : callback) : hcallback := fun acc la h =>
  match reads h acc, nth_error (h_links h) la with
  | Some ls, Some l => (match cb ls l with Some e => Err e | None => Ok tt end, h)
  | _, _ => (Panic, h)
  end.

(** What is seen of a result that is not [Ok]. *)
Definition bad {A} (r : res A) : obs := match r with Ok _ => SOk | Err e => SErr e | Panic => SPanic | Fuel => SFuel end.
Definition seen_link (h : heap) (x : option laddr) : obs := match x with None => SNoLink | Some la => match nth_error (h_links h) la with Some l => view l | None => SPanic end end.
Definition seen_val (x : option link) : obs := match x with None => SNoLink | Some l => view l end.
Definition add_link (src : source) (x : option laddr) (ls : list (laddr * source)) := match x with None => ls | Some la => ls ++ [(la, src)] end.
Definition add_val (x : option link) (ls : list link) := match x with None => ls | Some l => ls ++ [l] end.

Section Run.
  Variable hash : bytes -> bytes.

  Definition ostep (op : hop) (st : ostate) : obs * ostate :=
    let '(mkO h w ds ns ls) := st in
    let badly := (SBad, st) in
    match op with
    | HMakeLink l => (SOk, mkO (mkHeap (h_links h ++ [l]) (h_shards h)) w ds ns (ls ++ [(length (h_links h), Made)]))
    | HDecode p d l0 => let (r, h1) := new_links l0 h in match r with Ok las => (SOk, mkO h1 w ds (ns ++ [(p, d, las)]) ls) | _ => (bad r, mkO h1 w ds ns ls) end
    | HNewShard size b => let (r, h1) := hNewShard size b h in match r with Ok a => (SOk, mkO h1 w (ds ++ [a]) ns ls) | _ => (bad r, mkO h1 w ds ns ls) end
    | HFromDag n => match nth_error ns n with
        | Some (p, d, las) => let (r, h1) := hNewHamtFromDag p d las h in match r with Ok a => (SOk, mkO h1 w (ds ++ [a]) ns ls) | _ => (bad r, mkO h1 w ds ns ls) end
        | None => badly end
    | HBuilder d b => match nth_error ds d with
        | Some a => match nth_error (h_shards h) a with
            | Some c => (SOk, mkO (mkHeap (h_links h) (set_nth a (mkCell (c_size c) b (c_bf c) (c_key c) (c_val c) (c_slots c)) (h_shards h))) w ds ns ls)
            | None => (SPanic, st) end
        | None => badly end
    | HSetL d name l => match nth_error ds d, nth_error ls l with
        | Some a, Some (la, _) => let (r, h1) := hSetLink hash w name la a h in (bad r, mkO h1 w ds ns ls)
        | _, _ => badly end
    | HSwapN d name nd => match nth_error ds d with
        | Some a => let '(r, (h1, w1)) := hSwap hash name nd a (h, w) in
            match r with Ok x => (seen_link h1 x, mkO h1 w1 ds ns (add_link Taken x ls)) | _ => (bad r, mkO h1 w1 ds ns ls) end
        | None => badly end
    | HTakeN d name => match nth_error ds d with
        | Some a => let (r, h1) := hTake hash w name a h in
            match r with Ok x => (seen_link h1 x, mkO h1 w ds ns (add_link Taken x ls)) | _ => (bad r, mkO h1 w ds ns ls) end
        | None => badly end
    | HFindN d name => match nth_error ds d with
        | Some a => let (r, h1) := hFind hash w name a h in
            match r with Ok x => (seen_link h1 x, mkO h1 w ds ns (add_link (Found name) x ls)) | _ => (bad r, mkO h1 w ds ns ls) end
        | None => badly end
    | HEach d cb => match nth_error ds d with
        | Some a => let '(r, (h1, acc)) := hForEachLink w (hcb_of cb) a (h, []) in
            match r, reads h1 (rev acc) with
            | Ok _, Some l => (SWalk None l, mkO h1 w ds ns (ls ++ map (fun la => (la, Walked)) (rev acc)))
            | Err e, Some l => (SWalk (Some e) l, mkO h1 w ds ns (ls ++ map (fun la => (la, Walked)) (rev acc)))
            | _, _ => (bad r, mkO h1 w ds ns ls) end
        | None => badly end
    | HToNode d => match nth_error ds d with
        | Some a => let (r, w1) := hNode (hbound h) h a w in
            match r with
            | Ok nd => let (r2, h1) := new_links (node_links nd) h in
                match r2 with Ok las => (SNode nd, mkO h1 w1 ds (ns ++ [(node_prefix nd, node_bytes nd, las)]) ls) | _ => (bad r2, mkO h1 w1 ds ns ls) end
            | _ => (bad r, mkO h w1 ds ns ls) end
        | None => badly end
    | HReadLink l => match nth_error ls l with
        | Some (la, _) => (seen_link h (Some la), st)
        | None => badly end
    | HReadNode n => match nth_error ns n with
        | Some (p, d, las) => (match reads h las with Some l => SNode (NProto p d l) | None => SPanic end, st)
        | None => badly end
    end.

  Definition vstep (op : hop) (st : vstate) : obs * vstate :=
    let '(mkV w ds ns ls) := st in
    let badly := (SBad, st) in
    match op with
    | HMakeLink l => (SOk, mkV w ds ns (ls ++ [l]))
    | HDecode p d l0 => (SOk, mkV w ds (ns ++ [NProto p d l0]) ls)
    | HNewShard size b => match NewShard size with Ok s => (SOk, mkV w (ds ++ [SetCidBuilder b s]) ns ls) | r => (bad r, st) end
    | HFromDag n => match nth_error ns n with
        | Some nd => match NewHamtFromDag nd with Ok s => (SOk, mkV w (ds ++ [s]) ns ls) | r => (bad r, st) end
        | None => badly end
    | HBuilder d b => match nth_error ds d with
        | Some s => (SOk, mkV w (set_nth d (SetCidBuilder b s) ds) ns ls)
        | None => badly end
    | HSetL d name l => match nth_error ds d, nth_error ls l with
        | Some s, Some lk => let (r, s1) := SetLink hash w name lk s in (bad r, mkV w (set_nth d s1 ds) ns ls)
        | _, _ => badly end
    | HSwapN d name nd => match nth_error ds d with
        | Some s => let '(r, (s1, w1)) := Swap hash name nd (s, w) in
            match r with Ok x => (seen_val x, mkV w1 (set_nth d s1 ds) ns (add_val x ls)) | _ => (bad r, mkV w1 (set_nth d s1 ds) ns ls) end
        | None => badly end
    | HTakeN d name => match nth_error ds d with
        | Some s => let (r, s1) := Take hash w name s in
            match r with Ok x => (seen_val x, mkV w (set_nth d s1 ds) ns (add_val x ls)) | _ => (bad r, mkV w (set_nth d s1 ds) ns ls) end
        | None => badly end
    | HFindN d name => match nth_error ds d with
        | Some s => let (r, s1) := Find hash w name s in
            match r with Ok x => (seen_val x, mkV w (set_nth d s1 ds) ns (add_val x ls)) | _ => (bad r, mkV w (set_nth d s1 ds) ns ls) end
        | None => badly end
    | HEach d cb => match nth_error ds d with
        | Some s => let '(r, (s1, acc)) := ForEachLink w cb (s, []) in
            match r with
            | Ok _ => (SWalk None (rev acc), mkV w (set_nth d s1 ds) ns (ls ++ rev acc))
            | Err e => (SWalk (Some e) (rev acc), mkV w (set_nth d s1 ds) ns (ls ++ rev acc))
            | _ => (bad r, mkV w (set_nth d s1 ds) ns ls) end
        | None => badly end
    | HToNode d => match nth_error ds d with
        | Some s => let (r, w1) := Node s w in
            match r with Ok nd => (SNode nd, mkV w1 ds (ns ++ [nd]) ls) | _ => (bad r, mkV w1 ds ns ls) end
        | None => badly end
    | HReadLink l => match nth_error ls l with
        | Some lk => (view lk, st)
        | None => badly end
    | HReadNode n => match nth_error ns n with
        | Some nd => (SNode nd, st)
        | None => badly end
    end.

  (** A panic ends the program. *)
  Definition stops (b : obs) : bool := match b with SPanic | SFuel => true | _ => false end.
  Fixpoint orun (ops : list hop) (st : ostate) : list obs * ostate :=
    match ops with
    | [] => ([], st)
    | op :: r => let (b, st1) := ostep op st in if stops b then ([b], st1) else let (bs, st2) := orun r st1 in (b :: bs, st2)
    end.
  Fixpoint vrun (ops : list hop) (st : vstate) : list obs * vstate :=
    match ops with
    | [] => ([], st)
    | op :: r => let (b, st1) := vstep op st in if stops b then ([b], st1) else let (bs, st2) := vrun r st1 in (b :: bs, st2)
    end.
End Run.
Definition ostart (w : world) : ostate := mkO (mkHeap [] []) w [] [] [].
Definition vstart (w : world) : vstate := mkV w [] [] [].
