(** Model of /repo/mod/dagmodifier.go.

    Simplifications: contexts are not modelled; the prefix and RawLeaves fields are
    not changed by the caller. Nodes are values here; the Link objects that nodes share
    are in Alias.v. *)
From Verif Require Import Base Pb FSNode Dag Builder Balanced Trickle Importer Reader.

(** /repo/mod/dagmodifier.go:40-56 (the DAG service is the world). [m_node] is
    [None] when curNode is nil, which happens after failures in Sync. *)
Record modifier := mkMod {
  m_node : option node;
  m_start : Z;
  m_off : Z;
  m_buf : option bytes;
  m_prefix : prefix;
  m_raw : bool;
  m_read : option reader
}.

(** Field updates. /repo/mod/dagmodifier.go:40-56 *)
Definition m_set_node n m := mkMod n (m_start m) (m_off m) (m_buf m) (m_prefix m) (m_raw m) (m_read m).
Definition m_set_start s m := mkMod (m_node m) s (m_off m) (m_buf m) (m_prefix m) (m_raw m) (m_read m).
Definition m_set_off o m := mkMod (m_node m) (m_start m) o (m_buf m) (m_prefix m) (m_raw m) (m_read m).
Definition m_set_buf b m := mkMod (m_node m) (m_start m) (m_off m) b (m_prefix m) (m_raw m) (m_read m).
Definition m_set_read r m := mkMod (m_node m) (m_start m) (m_off m) (m_buf m) (m_prefix m) (m_raw m) r.

(** /repo/mod/dagmodifier.go:64-87; other node implementations are not modelled. *)
Definition NewDagModifier (from : node) : modifier :=
  let p := node_prefix from in
  mkMod (Some from) 0 0 None (mkPrefix (p_version p) DagProtobuf (p_mhtype p) (p_mhlen p)) (0 <? p_version p) None.

(** State of a call: the modifier and the DAG service.
    /repo/mod/dagmodifier.go:40-56 *)
Definition mst := (modifier * world)%type.
(** Reading and changing the fields and the service.
    /repo/mod/dagmodifier.go:40-56 *)
Definition get_mod : M mst modifier := fun s => (Ok (fst s), s).
Definition upd_mod (f : modifier -> modifier) : M mst unit := fun s => (Ok tt, (f (fst s), snd s)).
Definition get_world : M mst world := fun s => (Ok (snd s), s).
(** [dm.dagserv.Add]. /repo/mod/dagmodifier.go:140, 238, 518 *)
Definition mod_add (n : node) : M mst unit := fun s =>
  let (r, w) := dserv_add n None (snd s) in (r, (fst s, w)).
(** The current node, ErrNotUnixfs if it is nil.
    /repo/mod/dagmodifier.go:190, 375 *)
Definition cur_node : M mst node := fun s =>
  match m_node (fst s) with Some n => (Ok n, s) | None => (Err EModifyKind, s) end.

(** The reader keeps the object it was opened on as its root (/repo/io/dagreader.go:106).
    When that object is changed in place from [n] to [n'], a walker created later
    (resetPosition, /repo/io/dagreader.go:495) starts at [n']; the walker in use took
    the CIDs of the children when it was created (go-ipld-format
    [NewNavigableIPLDNode]) and so goes on below [n], except that a root without
    children that has not been visited yet is read as it is then. *)
Definition root_changed (n n' : node) (r : reader) : reader :=
  mkReader n' (r_size r) (r_off r)
    (match r_stack r, node_links n' with [], _ :: _ => [(n, O)] | st, _ => st end) (r_data r).
(** The current node [n] is changed in place into [n'] (the root of the reader is another
    node if the current node is of type Metadata, or was replaced by a raw node).
    /repo/mod/dagmodifier.go:136, 233, 513, 399 *)
Definition m_change_node (n n' : node) (m : modifier) : modifier :=
  m_set_node (Some n')
    (m_set_read (option_map (fun r => if node_eqb (r_root r) n then root_changed n n' r else r) (m_read m)) m).

(** /repo/mod/dagmodifier.go:179-192 *)
Definition fileSize (n : node) : res Z :=
  match n with
  | NProto _ b _ => let? f := FSNodeFromBytes b in Ok (FileSize f)
  | NRaw _ d => Ok (u64 (zlen d))
  end.

Section Modifier.
  (** The chunker: what [dm.splitter] makes of the buffered bytes.
      /repo/mod/dagmodifier.go:44 *)
  Variable split : bytes -> list bytes.
  (** [writebufferSize], 2 MiB. /repo/mod/dagmodifier.go:33 *)
  Variable wbsize : Z.

  (** ** Appending *)

  (** The blocks of [NewSizeSplitter(io.LimitReader(zeroReader{}, size), 4096)].
      /repo/mod/dagmodifier.go:134-135 *)
  Definition zeros (n : Z) : bytes := repeat x00 (Z.to_nat n).
  Definition zero_chunks (size : Z) : list bytes :=
    if size <=? 0 then []
    else repeat (zeros 4096) (Z.to_nat (size / 4096)) ++
         (if size mod 4096 =? 0 then [] else [zeros (size mod 4096)]).

  (** /repo/mod/dagmodifier.go:360-377: the result, the base node afterwards (it is
      changed in place) and the store. *)
  Definition appendData (m : modifier) (n : node) (chunks : list bytes) (w : world) : res node * node * world :=
    trickle_append (S (length chunks)) (weight n)
      (mkParams DefaultLinksPerBlock (m_raw m) (Some (m_prefix m)) false) false (map EvData chunks) n w.

  (** appendData on the current node, which is changed in place.
      /repo/mod/dagmodifier.go:136, 233 *)
  Definition append_cur (chunks : list bytes) : M mst node := fun s =>
    match m_node (fst s) with
    | None => (Err EModifyKind, s)
    | Some n => let '(r, n', w') := appendData (fst s) n chunks (snd s) in
                (r, (m_change_node n n' (fst s), w'))
    end.

  (** /repo/mod/dagmodifier.go:133-142 *)
  Definition expandSparse (size : Z) : M mst unit :=
    do nn <- append_cur (zero_chunks size) ;;
    mod_add nn.

  (** ** Overwriting *)

  (** [dst] with the first bytes of the buffer copied over it, and what is left in
      the buffer. bytes.Buffer [Read] (io.EOF is ignored by the callers),
      called at /repo/mod/dagmodifier.go:262, 290. *)
  Definition buf_read (dst buf : bytes) : bytes * bytes :=
    (firstn (length dst) buf ++ skipn (length buf) dst, skipn (length dst) buf).

  (** Replacing the CID of link [i]. /repo/mod/dagmodifier.go:338 *)
  Fixpoint set_link (i : nat) (k : node) (ls : list link) : list link :=
    match i, ls with
    | _, [] => []
    | O, l :: r => mkLink (lname l) (lsize l) k :: r
    | S i', l :: r => l :: set_link i' k r
    end.

  (** The loop over the block sizes. [rec] is modifyDag on a child; the links are
      those of the node changed in place (EncodeProtobuf sorts them), also on an error.
      /repo/mod/dagmodifier.go:325-353 *)
  Fixpoint modify_links (rec : node -> Z -> bytes -> world -> res node * bytes * world)
    (sizes : list Z) (i : nat) (cur offset : Z) (ls : list link) (buf : bytes) (w : world)
    : res unit * list link * bytes * world :=
    match sizes with
    | [] => (Ok tt, ls, buf, w)
    | bs :: r =>
        let next := u64 (cur + bs) in
        if offset <? next then
          match nth_error ls i with
          | None => (Panic, ls, buf, w)
          | Some l =>
              match dserv_get w (lto l) with
              | Ok child =>
                  let '(x, buf', w') := rec child (u64 (offset - cur)) buf w in
                  match x with
                  | Ok k =>
                      let ls' := lsort (set_link i k ls) in
                      if zlen buf' =? 0 then (Ok tt, ls', buf', w')
                      else modify_links rec r (S i) next next ls' buf' w'
                  | Err e => (Err e, ls, buf', w')
                  | Panic => (Panic, ls, buf', w')
                  | Fuel => (Fuel, ls, buf', w')
                  end
              | Err e => (Err e, ls, buf, w)
              | Panic => (Panic, ls, buf, w)
              | Fuel => (Fuel, ls, buf, w)
              end
          end
        else modify_links rec r (S i) next offset ls buf w
    end.

  (** Adding the node made for a leaf; its CID is returned.
      /repo/mod/dagmodifier.go:273-281, 301-310 *)
  Definition add_leaf (n : node) (buf : bytes) (w : world) : res node * bytes * world :=
    match dserv_add n None w with
    | (Ok _, w') => (Ok (seal n), buf, w')
    | (Err e, w') => (Err e, buf, w')
    | (Panic, w') => (Panic, buf, w')
    | (Fuel, w') => (Fuel, buf, w')
    end.

  (** A leaf. /repo/mod/dagmodifier.go:254-310 (slicing the data beyond its length
      panics). *)
  Definition modify_leaf (n : node) (offset : Z) (buf : bytes) (w : world) : res node * bytes * world :=
    match n with
    | NProto p b _ =>
        match FSNodeFromBytes b with
        | Ok f =>
            let d := getData f in
            if zlen d <? offset then (Panic, buf, w)
            else
              let (new, buf') := buf_read (zdrop offset d) buf in
              match GetBytes (set_data (option_map (fun _ => ztake offset d ++ new) (d_data f)) f) with
              | Ok b' => add_leaf (NProto p b' []) buf' w
              | Err e => (Err e, buf', w)
              | Panic => (Panic, buf', w)
              | Fuel => (Fuel, buf', w)
              end
        | Err e => (Err e, buf, w)
        | Panic => (Panic, buf, w)
        | Fuel => (Fuel, buf, w)
        end
    | NRaw p d =>
        if zlen d <? offset then (Panic, buf, w)
        else
          let (new, buf') := buf_read (zdrop offset d) buf in
          add_leaf (NRaw p (ztake offset d ++ new)) buf' w
    end.

  (** /repo/mod/dagmodifier.go:252-357: the CID of the new node, the buffer and
      the store; and the links of [n] afterwards. *)
  Fixpoint modifyDag (fuel : nat) (n : node) (offset : Z) (buf : bytes) (w : world)
    : res node * bytes * world * node :=
    match node_links n with
    | [] => (modify_leaf n offset buf w, n)
    | _ :: _ =>
        match n with
        | NRaw _ _ => (Err EModifyKind, buf, w, n)
        | NProto p b ls =>
            match FSNodeFromBytes b with
            | Ok f =>
                match fuel with
                | O => (Fuel, buf, w, n)
                | S fu =>
                    let '(x, ls', buf', w') :=
                      modify_links (fun c o bf ww => fst (modifyDag fu c o bf ww)) (d_blocksizes f) 0 0 offset ls buf w in
                    let n' := NProto p b ls' in
                    match x with
                    | Ok _ =>
                        match dserv_add n' None w' with
                        | (Ok _, w2) => (Ok (seal n'), buf', w2, seal n')
                        | (Err e, w2) => (Err e, buf', w2, seal n')
                        | (Panic, w2) => (Panic, buf', w2, seal n')
                        | (Fuel, w2) => (Fuel, buf', w2, seal n')
                        end
                    | Err e => (Err e, buf', w', n')
                    | Panic => (Panic, buf', w', n')
                    | Fuel => (Fuel, buf', w', n')
                    end
                end
            | Err e => (Err e, buf, w, n)
            | Panic => (Panic, buf, w, n)
            | Fuel => (Fuel, buf, w, n)
            end
        end
    end.

  (** modifyDag on the current node: the buffer is consumed and the node changed in
      place. /repo/mod/dagmodifier.go:221 *)
  Definition modify_cur : M mst node := fun s =>
    match m_node (fst s), m_buf (fst s) with
    | Some n, Some buf =>
        let '(r, buf', w', n') := modifyDag (weight n) n (m_start (fst s)) buf (snd s) in
        (r, (m_set_buf (Some buf') (m_set_node (Some n') (fst s)), w'))
    | _, _ => (Panic, s)
    end.

  (** [dm.curNode, err = dm.dagserv.Get(thisc)]: curNode is nil on an error.
      /repo/mod/dagmodifier.go:226 *)
  Definition get_cur (k : node) : M mst unit := fun s =>
    match dserv_get (snd s) k with
    | Ok n => (Ok tt, (m_set_node (Some n) (fst s), snd s))
    | Err e => (Err e, (m_set_node None (fst s), snd s))
    | Panic => (Panic, s)
    | Fuel => (Fuel, s)
    end.

  (** [dm.curNode, err = dm.appendData(dm.curNode, dm.splitter(dm.wrBuf))]: curNode is
      nil on an error. The buffer is drained by the splitter (simplification: also
      completely if appending fails; the modifier is unusable then).
      /repo/mod/dagmodifier.go:233-236 *)
  Definition append_buf (buf : bytes) : M mst node := fun s =>
    match append_cur (split buf) s with
    | (Ok n, (m, w)) => (Ok n, (m_set_buf (Some []) (m_set_node (Some n) m), w))
    | (Err e, (m, w)) => (Err e, (m_set_buf (Some []) (m_set_node None m), w))
    | (r, s') => (r, s')
    end.

  (** /repo/mod/dagmodifier.go:195-248 *)
  Definition Sync : M mst unit :=
    do m0 <- get_mod ;;
    match m_buf m0 with
    | None => ret tt
    | Some buf0 =>
        do _ <- upd_mod (m_set_read None) ;;
        do n0 <- cur_node ;;
        do fs <- lift (fileSize n0) ;;
        do _ <- (if fs <? m_start m0 then expandSparse (i64 (m_start m0 - fs)) else ret tt) ;;
        do k <- modify_cur ;;
        do _ <- get_cur k ;;
        do m1 <- get_mod ;;
        do _ <- (match m_buf m1 with
                 | Some (x :: buf) =>
                     do nn <- append_buf (x :: buf) ;;
                     mod_add nn
                 | _ => ret tt
                 end) ;;
        upd_mod (fun m => m_set_buf None (m_set_start (u64 (m_start m + zlen buf0)) m))
    end.

  (** /repo/mod/dagmodifier.go:168-177 *)
  Definition mSize : M mst Z :=
    do n <- cur_node ;;
    do fs <- lift (fileSize n) ;;
    do m <- get_mod ;;
    match m_buf m with
    | Some buf =>
        let e := i64 (i64 (zlen buf) + i64 (m_start m)) in
        ret (if i64 fs <? e then e else i64 fs)
    | None => ret (i64 fs)
    end.

  (** /repo/mod/dagmodifier.go:145-165 *)
  Definition mWrite (b : bytes) : M mst Z :=
    do _ <- upd_mod (fun m =>
      let m1 := m_set_read None m in
      m_set_off (u64 (m_off m + zlen b)) (m_set_buf (Some (match m_buf m with Some x => x | None => [] end ++ b)) m1)) ;;
    do m <- get_mod ;;
    do _ <- (match m_buf m with
             | Some buf => if wbsize <? zlen buf then Sync else ret tt
             | None => ret tt
             end) ;;
    ret (zlen b).

  (** /repo/mod/dagmodifier.go:90-119 *)
  Definition WriteAt (b : bytes) (offset : Z) : M mst Z :=
    do m <- get_mod ;;
    do _ <- (match m_buf m with
             | Some buf =>
                 if offset =? i64 (m_start m) then
                   if zlen buf <=? zlen b then upd_mod (m_set_buf (Some [])) else ret tt
                 else if u64 offset =? m_off m then ret tt
                 else
                   do sz <- mSize ;;
                   do _ <- (if sz <? offset then expandSparse (i64 (offset - sz)) else ret tt) ;;
                   do _ <- Sync ;;
                   upd_mod (m_set_start (u64 offset))
             | None =>
                 if u64 offset =? m_off m then ret tt
                 else
                   do sz <- mSize ;;
                   do _ <- (if sz <? offset then expandSparse (i64 (offset - sz)) else ret tt) ;;
                   do _ <- Sync ;;
                   upd_mod (m_set_start (u64 offset))
             end) ;;
    mWrite b.

  (** ** Reading *)

  (** Seek on the reader kept by the modifier. /repo/mod/dagmodifier.go:482-487 *)
  Definition read_seek (offset whence : Z) : M mst Z := fun s =>
    match m_read (fst s) with
    | None => (Panic, s)
    | Some r =>
        let '(i, e, r') := Seek (snd s) offset whence r in
        (rmap (fun _ => i) e, (m_set_read (Some r') (fst s), snd s))
    end.

  (** /repo/mod/dagmodifier.go:391-421. The reader is kept only if the Seek succeeds. *)
  Definition readPrep : M mst unit :=
    do _ <- Sync ;;
    do m <- get_mod ;;
    match m_read m with
    | Some _ => ret tt
    | None =>
        do n <- (fun s => match m_node (fst s) with Some n => (Ok n, s) | None => (Err EUnknownNodeType, s) end) ;;
        do w <- get_world ;;
        do r <- lift (NewDagReader w n) ;;
        let '(i, e, r') := Seek w (i64 (m_off m)) 0 r in
        do _ <- lift e ;;
        if i =? i64 (m_off m) then upd_mod (m_set_read (Some r')) else throw EOther
    end.

  (** /repo/mod/dagmodifier.go:380-389 and 424-433: the bytes read and the error of
      the reader ([None]: nil). An error before the reader is reached is an [Err]. *)
  Definition mRead (k : nat) : M mst (bytes * option err) :=
    do _ <- readPrep ;;
    fun s =>
      match m_read (fst s) with
      | None => (Panic, s)
      | Some r =>
          let '(b, e, r') := CtxReadFull (snd s) k r in
          let s' := (m_set_off (u64 (m_off (fst s) + zlen b)) (m_set_read (Some r') (fst s)), snd s) in
          match e with
          | Ok _ => (Ok (b, None), s')
          | Err x => (Ok (b, Some x), s')
          | Panic => (Panic, s')
          | Fuel => (Fuel, s')
          end
      end.

  (** /repo/mod/dagmodifier.go:436-442 *)
  Definition mGetNode : M mst node :=
    do _ <- Sync ;;
    fun s => match m_node (fst s) with Some n => (Ok n, s) | None => (Panic, s) end.

  (** /repo/mod/dagmodifier.go:445-447 *)
  Definition HasChanges (m : modifier) : bool := match m_buf m with Some _ => true | None => false end.

  (** /repo/mod/dagmodifier.go:451-490 *)
  Definition mSeek (offset whence : Z) : M mst Z :=
    do _ <- Sync ;;
    do fisize <- mSize ;;
    do m <- get_mod ;;
    do new <- (if whence =? 1 then ret (u64 (m_off m + u64 offset))
               else if whence =? 0 then ret (u64 offset)
               else if whence =? 2 then ret (u64 (u64 fisize - u64 offset))
               else throw EInvalidWhence) ;;
    do _ <- (if fisize <? i64 new then expandSparse (i64 (i64 new - fisize)) else ret tt) ;;
    do _ <- upd_mod (fun m => m_set_start new (m_set_off new m)) ;;
    do m1 <- get_mod ;;
    do _ <- (match m_read m1 with
             | Some _ => do _ <- read_seek offset whence ;; ret tt
             | None => ret tt
             end) ;;
    ret (i64 new).

  (** ** Truncating *)

  (** The loop over the children: the number of children kept, the cut child and the
      new sizes; [None] if no child is cut. [rec] is dagTruncate on a child.
      /repo/mod/dagmodifier.go:559-585 *)
  Fixpoint trunc_links (rec : node -> Z -> world -> res node * world)
    (ls : list link) (i : nat) (cur size : Z) (f : FSNode) (w : world)
    : res (option (nat * node) * FSNode) * world :=
    match ls with
    | [] => (Ok (None, f), w)
    | l :: r =>
        match dserv_get w (lto l) with
        | Ok child =>
            match fileSize child with
            | Ok cs =>
                if size <? u64 (cur + cs) then
                  match rec child (u64 (size - cur)) w with
                  | (Ok nc, w') => (Ok (Some (i, nc), AddBlockSize (u64 (size - cur)) f), w')
                  | (Err e, w') => (Err e, w')
                  | (Panic, w') => (Panic, w')
                  | (Fuel, w') => (Fuel, w')
                  end
                else trunc_links rec r (S i) (u64 (cur + cs)) size (AddBlockSize cs f) w
            | Err e => (Err e, w)
            | Panic => (Panic, w)
            | Fuel => (Fuel, w)
            end
        | Err e => (Err e, w)
        | Panic => (Panic, w)
        | Fuel => (Fuel, w)
        end
    end.

  (** /repo/mod/dagmodifier.go:528-612; adding a nil node panics. Slicing beyond the
      length panics (simplification: Go allows slicing up to the capacity). The node
      given is changed in place into the result unless it is a raw node. *)
  Fixpoint dagTruncate (fuel : nat) (n : node) (size : Z) (w : world) : res node * world :=
    match node_links n with
    | [] =>
        match n with
        | NProto p b _ =>
            match FSNodeFromBytes b with
            | Ok f =>
                if zlen (getData f) <? size then (Panic, w)
                else
                  match WrapData (option_map (ztake size) (d_data f)) with
                  | Ok b' => (Ok (NProto p b' []), w)
                  | Err e => (Err e, w)
                  | Panic => (Panic, w)
                  | Fuel => (Fuel, w)
                  end
            | Err e => (Err e, w)
            | Panic => (Panic, w)
            | Fuel => (Fuel, w)
            end
        | NRaw p d => if zlen d <? size then (Panic, w) else (Ok (NRaw p (ztake size d)), w)
        end
    | _ :: _ =>
        match n with
        | NRaw _ _ => (Err EModifyKind, w)
        | NProto p b ls =>
            match FSNodeFromBytes b, fuel with
            | Ok f, S fu =>
                match trunc_links (dagTruncate fu) ls 0 0 size (RemoveAllBlockSizes f) w with
                | (Ok (Some (e, modified), f'), w') =>
                    match dserv_add modified None w' with
                    | (Ok _, w2) =>
                        match GetBytes f' with
                        | Ok d => (Ok (seal (NProto p d (firstn e ls ++ [make_link [] modified]))), w2)
                        | Err x => (Err x, w2)
                        | Panic => (Panic, w2)
                        | Fuel => (Fuel, w2)
                        end
                    | (Err x, w2) => (Err x, w2)
                    | (Panic, w2) => (Panic, w2)
                    | (Fuel, w2) => (Fuel, w2)
                    end
                | (Ok (None, _), w') => (Panic, w')
                | (Err x, w') => (Err x, w')
                | (Panic, w') => (Panic, w')
                | (Fuel, w') => (Fuel, w')
                end
            | Ok _, O => (Fuel, w)
            | Err e, _ => (Err e, w)
            | Panic, _ => (Panic, w)
            | Fuel, _ => (Fuel, w)
            end
        end
    end.

  (** dagTruncate on the current node; a dag-pb node is changed in place.
      /repo/mod/dagmodifier.go:513 *)
  Definition truncate_cur (size : Z) : M mst node := fun s =>
    match m_node (fst s) with
    | None => (Panic, s)
    | Some n =>
        match dagTruncate (weight n) n size (snd s) with
        | (Ok nn, w') =>
            (Ok nn, (match n with NRaw _ _ => fst s | NProto _ _ _ => m_change_node n nn (fst s) end, w'))
        | (r, w') => (r, (fst s, w'))
        end
    end.

  (** /repo/mod/dagmodifier.go:494-525 *)
  Definition mTruncate (size : Z) : M mst unit :=
    do _ <- Sync ;;
    do real <- mSize ;;
    if size =? real then ret tt
    else if real <? size then expandSparse (i64 (size - real))
    else
      do nn <- truncate_cur (u64 size) ;;
      do _ <- mod_add nn ;;
      upd_mod (m_set_node (Some nn)).
End Modifier.
