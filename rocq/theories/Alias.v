(** The Link objects shared between the node of a DagModifier (/repo/mod/dagmodifier.go)
    and the nodes it was made from or has handed out.

    go-merkledag [ProtoNode.Copy] copies the data and the slice of pointers to the
    links, but not the links. [NewDagModifier] and [GetNode] use it, and modifyDag
    assigns to [node.Links()[i].Cid]. Modifier.v treats nodes as values; here the
    links are cells of a heap, and the calls of Modifier.v are extended to heaps. Only
    the links of the current node need cells: nodes fetched from the DAG service
    are new objects that nobody else sees. *)
From Verif Require Import Base Pb FSNode Dag Builder Trickle Importer Reader Modifier Directory SpecModifier.
From Coq Require Import Permutation.

(** ** Objects *)

(** Link objects, by address. go-ipld-format [Link]; /repo/mod/dagmodifier.go:338 *)
Definition heap := list link.
(** Addresses of links. /repo/mod/dagmodifier.go:338 *)
Definition addr := nat.
(** The link at an address (addresses in use are in the heap).
    /repo/mod/dagmodifier.go:338 *)
Definition cell (h : heap) (a : addr) : link := nth a h (mkLink [] 0 (NRaw rawprefix [])).
(** What [Links()] shows for a slice of pointers. go-merkledag [ProtoNode.Links];
    /repo/mod/dagmodifier.go:254, 328, 559 *)
Definition view (h : heap) (ps : list addr) : list link := map (cell h) ps.

(** A node object: a RawNode (never changed), or a ProtoNode with its cached CID, if any.
    go-merkledag [ProtoNode]; /repo/mod/dagmodifier.go:77, 441 *)
Inductive obj :=
| ORaw (p : prefix) (d : bytes)
| OProto (p : prefix) (d : bytes) (ps : list addr) (cached : option node).
(** The node that an object shows. go-merkledag [ProtoNode.Data], [Links];
    /repo/mod/dagmodifier.go:253-254 *)
Definition shows (h : heap) (o : obj) : node :=
  match o with ORaw p d => NRaw p d | OProto p d ps _ => NProto p d (view h ps) end.
(** go-merkledag [ProtoNode.Cid], [RawNode.Cid]; /repo/mod/dagmodifier.go:72 *)
Definition obj_cid (h : heap) (o : obj) : node :=
  match o with OProto _ _ _ (Some k) => k | _ => seal (shows h o) end.
(** Asking for the CID stores it (simplification: the links are not sorted by it).
    go-merkledag [ProtoNode.Cid]; /repo/mod/dagmodifier.go:72 *)
Definition ask_cid (h : heap) (o : obj) : obj :=
  match o with OProto p d ps _ => OProto p d ps (Some (obj_cid h o)) | ORaw _ _ => o end.

(** Sorting the pointers by the names of the links. go-merkledag
    [ProtoNode.EncodeProtobuf]; /repo/mod/dagmodifier.go:341, 606 *)
Fixpoint pinsert (h : heap) (a : addr) (ps : list addr) : list addr :=
  match ps with
  | [] => [a]
  | b :: r => if name_ltb (lname (cell h b)) (lname (cell h a)) then b :: pinsert h a r else a :: b :: r
  end.
(** The whole sort. /repo/mod/dagmodifier.go:341, 606 *)
Fixpoint psort (h : heap) (ps : list addr) : list addr :=
  match ps with [] => [] | a :: r => pinsert h a (psort h r) end.

(** ** The current node *)

(** A call: the modifier and the DAG service as in Modifier.v, the heap and the pointers
    of the current node. /repo/mod/dagmodifier.go:40-56 *)
Definition hst := (mst * (heap * list addr))%type.
(** Links of the current node. /repo/mod/dagmodifier.go:42 *)
Definition cur_links (m : modifier) : list link := match m_node m with Some n => node_links n | None => [] end.

(** Sequencing: the second call is made if the first is successful.
    /repo/mod/dagmodifier.go:195-248 *)
Definition hbind {A B} (x : N hst A) (k : A -> N hst B) : N hst B := fun s r s' =>
  (exists a s1, x s (Ok a) s1 /\ k a s1 r s') \/ (exists e, x s (Err e) s' /\ r = Err e) \/
  (x s Panic s' /\ r = Panic) \/ (x s Fuel s' /\ r = Fuel).
(** Calls that leave the current node alone. /repo/mod/dagmodifier.go:145-192 *)
Definition same {A} (f : M mst A) : N hst A := fun s r s' => f (fst s) = (r, fst s') /\ snd s' = snd s.

(** Calls that drop links of the current node and append new ones.
    trickle.Append (/repo/importer/trickle/trickledag.go:91-154, RemoveChild and AddChild in
    /repo/importer/helpers/dagbuilder.go:337-352): which ones are kept is left
    open, and also in which order equal links are after sorting. *)
Definition append_ptrs {A} (f : M mst A) : N hst A := fun s r s' =>
  f (fst s) = (r, fst s') /\
  exists kept new, incl kept (snd (snd s)) /\ NoDup kept /\ fst (snd s') = fst (snd s) ++ new /\
    Permutation (snd (snd s')) (kept ++ seq (length (fst (snd s))) (length new)) /\
    view (fst (snd s')) (snd (snd s')) = cur_links (fst (fst s')).
(** Calls that replace the current node by one decoded from a block.
    /repo/mod/dagmodifier.go:226 *)
Definition fresh_ptrs {A} (f : M mst A) : N hst A := fun s r s' =>
  f (fst s) = (r, fst s') /\
  snd s' = (fst (snd s) ++ cur_links (fst (fst s')), seq (length (fst (snd s))) (length (cur_links (fst (fst s'))))).

Section Heap.
  (** As in Modifier.v. /repo/mod/dagmodifier.go:33, 44 *)
  Variable split : bytes -> list bytes.
  Variable wbsize : Z.

  (** The loop of modifyDag at the current node; [node.Links()[i].Cid = k] changes a
      cell. /repo/mod/dagmodifier.go:325-353 *)
  Fixpoint hmodify_links (rec : node -> Z -> bytes -> world -> res node * bytes * world)
    (sizes : list Z) (i : nat) (cur offset : Z) (h : heap) (ps : list addr) (buf : bytes) (w : world)
    : res unit * (heap * list addr) * bytes * world :=
    match sizes with
    | [] => (Ok tt, (h, ps), buf, w)
    | bs :: r =>
        let next := u64 (cur + bs) in
        if offset <? next then
          match nth_error ps i with
          | None => (Panic, (h, ps), buf, w)
          | Some a =>
              match dserv_get w (lto (cell h a)) with
              | Ok child =>
                  let '(x, buf', w') := rec child (u64 (offset - cur)) buf w in
                  match x with
                  | Ok k =>
                      let h' := set_link a k h in
                      let ps' := psort h' ps in
                      if zlen buf' =? 0 then (Ok tt, (h', ps'), buf', w')
                      else hmodify_links rec r (S i) next next h' ps' buf' w'
                  | Err e => (Err e, (h, ps), buf', w')
                  | Panic => (Panic, (h, ps), buf', w')
                  | Fuel => (Fuel, (h, ps), buf', w')
                  end
              | Err e => (Err e, (h, ps), buf, w)
              | Panic => (Panic, (h, ps), buf, w)
              | Fuel => (Fuel, (h, ps), buf, w)
              end
          end
        else hmodify_links rec r (S i) next offset h ps buf w
    end.

  (** modifyDag at the current node, a ProtoNode with prefix [p], data [b] and links
      [ps]. /repo/mod/dagmodifier.go:252-357 *)
  Definition hmodifyDag (fuel : nat) (p : prefix) (b : bytes) (h : heap) (ps : list addr) (offset : Z) (buf : bytes) (w : world)
    : res node * bytes * world * (heap * list addr) :=
    match ps with
    | [] => (modify_leaf (NProto p b []) offset buf w, (h, ps))
    | _ :: _ =>
        match FSNodeFromBytes b with
        | Ok f =>
            match fuel with
            | O => (Fuel, buf, w, (h, ps))
            | S fu =>
                let '(x, (h', ps'), buf', w') :=
                  hmodify_links (fun c o bf ww => fst (modifyDag fu c o bf ww)) (d_blocksizes f) 0 0 offset h ps buf w in
                match x with
                | Ok _ =>
                    let n' := NProto p b (view h' ps') in
                    match dserv_add n' None w' with
                    | (Ok _, w2) => (Ok (seal n'), buf', w2, (h', psort h' ps'))
                    | (Err e, w2) => (Err e, buf', w2, (h', psort h' ps'))
                    | (Panic, w2) => (Panic, buf', w2, (h', psort h' ps'))
                    | (Fuel, w2) => (Fuel, buf', w2, (h', psort h' ps'))
                    end
                | Err e => (Err e, buf', w', (h', ps'))
                | Panic => (Panic, buf', w', (h', ps'))
                | Fuel => (Fuel, buf', w', (h', ps'))
                end
            end
        | Err e => (Err e, buf, w, (h, ps))
        | Panic => (Panic, buf, w, (h, ps))
        | Fuel => (Fuel, buf, w, (h, ps))
        end
    end.

  (** modifyDag on the current node. /repo/mod/dagmodifier.go:221 *)
  Definition hmodify_cur : N hst node := fun s r s' =>
    let '((m, w), (h, ps)) := s in
    match m_node m, m_buf m with
    | Some (NProto p b _ as n), Some buf =>
        let '(x, buf', w', (h', ps')) := hmodifyDag (weight n) p b h ps (m_start m) buf w in
        r = x /\ s' = ((m_set_buf (Some buf') (m_set_node (Some (NProto p b (view h' ps'))) m), w'), (h', ps'))
    | _, _ => same modify_cur s r s'
    end.

  (** dagTruncate on the current node: [SetLinks(Links()[:end])] keeps [end] of the
      pointers, AddNodeLink makes one new link. /repo/mod/dagmodifier.go:528-612 *)
  Definition htruncate_cur (size : Z) : N hst node := fun s r s' =>
    let '((m, w), (h, ps)) := s in
    match m_node m, ps with
    | Some (NProto p b _ as n), _ :: _ =>
        truncate_cur size (m, w) = (r, fst s') /\
        match r with
        | Ok _ =>
            exists f fu e modified f' w1, FSNodeFromBytes b = Ok f /\ weight n = S fu /\
              trunc_links (dagTruncate fu) (view h ps) 0 0 size (RemoveAllBlockSizes f) w = (Ok (Some (e, modified), f'), w1) /\
              let h' := h ++ [make_link [] modified] in
              snd s' = (h', psort h' (firstn e ps ++ [length h]))
        | _ => snd s' = (h, ps)
        end
    | _, _ => same (truncate_cur size) s r s'
    end.

  (** /repo/mod/dagmodifier.go:133-142 *)
  Definition hexpandSparse (size : Z) : N hst unit :=
    hbind (append_ptrs (append_cur (zero_chunks size))) (fun nn => same (mod_add nn)).

  (** /repo/mod/dagmodifier.go:195-248 *)
  Definition hSync : N hst unit :=
    hbind (same get_mod) (fun m0 =>
    match m_buf m0 with
    | None => same (ret tt)
    | Some buf0 =>
        hbind (same (upd_mod (m_set_read None))) (fun _ =>
        hbind (same cur_node) (fun n0 =>
        hbind (same (lift (fileSize n0))) (fun fs =>
        hbind (if fs <? m_start m0 then hexpandSparse (i64 (m_start m0 - fs)) else same (ret tt)) (fun _ =>
        hbind hmodify_cur (fun k =>
        hbind (fresh_ptrs (get_cur k)) (fun _ =>
        hbind (same get_mod) (fun m1 =>
        hbind (match m_buf m1 with
               | Some (x :: buf) =>
                   hbind (append_ptrs (append_buf split (x :: buf))) (fun nn => same (mod_add nn))
               | _ => same (ret tt)
               end) (fun _ =>
        same (upd_mod (fun m => m_set_buf None (m_set_start (u64 (m_start m + zlen buf0)) m)))))))))))
    end).

  (** /repo/mod/dagmodifier.go:145-165 *)
  Definition hWrite (b : bytes) : N hst Z :=
    hbind (same (upd_mod (fun m =>
      let m1 := m_set_read None m in
      m_set_off (u64 (m_off m + zlen b)) (m_set_buf (Some (match m_buf m with Some x => x | None => [] end ++ b)) m1)))) (fun _ =>
    hbind (same get_mod) (fun m =>
    hbind (match m_buf m with
           | Some buf => if wbsize <? zlen buf then hSync else same (ret tt)
           | None => same (ret tt)
           end) (fun _ =>
    same (ret (zlen b))))).

  (** /repo/mod/dagmodifier.go:90-119 *)
  Definition hWriteAt (b : bytes) (offset : Z) : N hst Z :=
    hbind (same get_mod) (fun m =>
    hbind (match m_buf m with
           | Some buf =>
               if offset =? i64 (m_start m) then
                 if zlen buf <=? zlen b then same (upd_mod (m_set_buf (Some []))) else same (ret tt)
               else if u64 offset =? m_off m then same (ret tt)
               else
                 hbind (same mSize) (fun sz =>
                 hbind (if sz <? offset then hexpandSparse (i64 (offset - sz)) else same (ret tt)) (fun _ =>
                 hbind hSync (fun _ => same (upd_mod (m_set_start (u64 offset))))))
           | None =>
               if u64 offset =? m_off m then same (ret tt)
               else
                 hbind (same mSize) (fun sz =>
                 hbind (if sz <? offset then hexpandSparse (i64 (offset - sz)) else same (ret tt)) (fun _ =>
                 hbind hSync (fun _ => same (upd_mod (m_set_start (u64 offset))))))
           end) (fun _ =>
    hWrite b)).

  (** /repo/mod/dagmodifier.go:380-433: reading leaves the node alone (the Sync in
      mRead finds nothing to do). *)
  Definition hRead (k : nat) : N hst (bytes * option err) :=
    hbind hSync (fun _ => same (mRead split k)).

  (** /repo/mod/dagmodifier.go:451-490 *)
  Definition hSeek (offset whence : Z) : N hst Z :=
    hbind hSync (fun _ =>
    hbind (same mSize) (fun fisize =>
    hbind (same get_mod) (fun m =>
    hbind (same (if whence =? 1 then ret (u64 (m_off m + u64 offset))
                 else if whence =? 0 then ret (u64 offset)
                 else if whence =? 2 then ret (u64 (u64 fisize - u64 offset))
                 else throw EInvalidWhence)) (fun new =>
    hbind (if fisize <? i64 new then hexpandSparse (i64 (i64 new - fisize)) else same (ret tt)) (fun _ =>
    hbind (same (upd_mod (fun m => m_set_start new (m_set_off new m)))) (fun _ =>
    hbind (same get_mod) (fun m1 =>
    hbind (match m_read m1 with
           | Some _ => hbind (same (read_seek offset whence)) (fun _ => same (ret tt))
           | None => same (ret tt)
           end) (fun _ =>
    same (ret (i64 new)))))))))).

  (** /repo/mod/dagmodifier.go:494-525 *)
  Definition hTruncate (size : Z) : N hst unit :=
    hbind hSync (fun _ =>
    hbind (same mSize) (fun real =>
    if size =? real then same (ret tt)
    else if real <? size then hexpandSparse (i64 (size - real))
    else
      hbind (htruncate_cur (u64 size)) (fun nn =>
      hbind (same (mod_add nn)) (fun _ =>
      same (upd_mod (m_set_node (Some nn))))))).

  (** /repo/mod/dagmodifier.go:436-442 (the Sync in mGetNode finds nothing to do) *)
  Definition hGetNode : N hst node :=
    hbind hSync (fun _ => same (mGetNode split)).

  (** The result of a call as an observation. /repo/mod/dagmodifier.go:90-525 *)
  Definition hmap {A B} (g : A -> B) (x : N hst A) : N hst B := fun s r s' => exists q, x s q s' /\ r = rmap g q.
  (** The calls of a modifier. /repo/mod/dagmodifier.go:90-525 *)
  Definition hop (op : mop) : N hst mobs :=
    match op with
    | MWrite b => hmap BInt (hWrite b)
    | MWriteAt b off => hmap BInt (hWriteAt b off)
    | MSeek off wh => hmap BInt (hSeek off wh)
    | MTruncate n => hmap (fun _ => BDone) (hTruncate n)
    | MRead k => hmap (fun x => BData (fst x) (snd x)) (hRead k)
    | MSize => hmap BInt (same mSize)
    | MSync => hmap (fun _ => BDone) hSync
    | MGetNode => hmap BNode hGetNode
    end.
End Heap.

(** ** Several modifiers and nodes in hand *)

(** A cell of the current node may have been changed through another node. The walker
    of an open reader has the old CIDs. /repo/mod/dagmodifier.go:338 *)
Definition refresh (h : heap) (ps : list addr) (m : modifier) : modifier :=
  match m_node m with
  | Some (NProto p b ls as n) =>
      let n' := NProto p b (view h ps) in
      if node_eqb n n' then m else m_change_node n n' m
  | _ => m
  end.

(** The DAG service, the heap, the modifiers with the pointers of their nodes, and the
    node objects in the hands of the caller. /repo/mod/dagmodifier.go:40-56 *)
Record hstate := mkH { h_world : world; h_heap : heap; h_mods : list (modifier * list addr); h_held : list obj }.

(** [Copy()] of the current node. go-merkledag [ProtoNode.Copy], [RawNode.Copy];
    /repo/mod/dagmodifier.go:441 *)
Definition copy_node (n : node) (ps : list addr) : obj :=
  match n with NRaw p d => ORaw p d | NProto p d _ => OProto p d ps None end.
(** Pointers of an object. go-merkledag [ProtoNode.Copy]; /repo/mod/dagmodifier.go:77 *)
Definition obj_ptrs (o : obj) : list addr := match o with ORaw _ _ => [] | OProto _ _ ps _ => ps end.

(** Replacing an element (/repo/mod/dagmodifier.go:40-56). *)
Fixpoint set_nth {A} (i : nat) (x : A) (l : list A) : list A :=
  match i, l with
  | _, [] => []
  | O, _ :: r => x :: r
  | S i', y :: r => y :: set_nth i' x r
  end.
(** What a call hands out. /repo/mod/dagmodifier.go:441 *)
Definition handed (r : res mobs) (ps : list addr) : list obj :=
  match r with Ok (BNode n) => [copy_node n ps] | _ => [] end.
(** An object decoded from a block, with its CID. go-merkledag [DagService.Get];
    /repo/mod/dagmodifier.go:226 *)
Definition decoded (h : heap) (n : node) : obj :=
  match n with
  | NRaw p d => ORaw p d
  | NProto p d ls => OProto p d (seq (length h) (length ls)) (Some n)
  end.

(** What the caller does: get a node from the DAG service, ask an object in hand for
    its CID, make a modifier from it, or call a modifier. /repo/mod/dagmodifier.go:59-88 *)
Inductive hcall :=
| HGet (k : node)
| HCid (j : nat)
| HNew (j : nat)
| HCall (i : nat) (op : mop).

(** One step. NewDagModifier asks for the CID and copies
    (/repo/mod/dagmodifier.go:72-77). *)
Inductive hstep (split : bytes -> list bytes) (wbsize : Z) : hstate -> hcall -> res mobs -> hstate -> Prop :=
| H_get w h ms hs k n :
    dserv_get w k = Ok n ->
    hstep split wbsize (mkH w h ms hs) (HGet k) (Ok (BNode n)) (mkH w (h ++ node_links n) ms (hs ++ [decoded h n]))
| H_cid w h ms hs j o :
    nth_error hs j = Some o ->
    hstep split wbsize (mkH w h ms hs) (HCid j) (Ok (BNode (obj_cid h o))) (mkH w h ms (set_nth j (ask_cid h o) hs))
| H_new w h ms hs j o :
    nth_error hs j = Some o ->
    hstep split wbsize (mkH w h ms hs) (HNew j) (Ok BDone)
      (mkH w h (ms ++ [(NewDagModifier (shows h o), obj_ptrs o)]) (set_nth j (ask_cid h o) hs))
| H_call w h ms hs i op m ps r m' w' h' ps' :
    nth_error ms i = Some (m, ps) ->
    hop split wbsize op ((refresh h ps m, w), (h, ps)) r ((m', w'), (h', ps')) ->
    hstep split wbsize (mkH w h ms hs) (HCall i op) r (mkH w' h' (set_nth i (m', ps') ms) (hs ++ handed r ps')).

(** Steps one after the other (/repo/mod/dagmodifier.go:90-525). *)
Inductive hrun (split : bytes -> list bytes) (wbsize : Z) : hstate -> list hcall -> list (res mobs) -> hstate -> Prop :=
| hrun_nil st : hrun split wbsize st [] [] st
| hrun_cons st c r st1 cs rs st2 :
    hstep split wbsize st c r st1 -> hrun split wbsize st1 cs rs st2 -> hrun split wbsize st (c :: cs) (r :: rs) st2.

(** Nothing in hand yet. /repo/mod/dagmodifier.go:59 *)
Definition hstart (w : world) : hstate := mkH w [] [] [].
