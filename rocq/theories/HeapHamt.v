(** Model of /repo/hamt/hamt.go with objects: shards and links are cells of a heap, shards
    refer to them by address, and assignments change cells. Hamt.v has values instead; here
    nothing is assumed about which objects are shared. Nodes that are only reached by their
    CID stay values (they are fetched and decoded anew each time). *)
From Verif Require Import Base Pb FSNode Dag Builder HashBits Bitfield Hamt.

(** Pointers to go-ipld-format [Link] objects and to Shard objects. /repo/hamt/hamt.go:88, 778-779 *)
Definition laddr := nat.
Definition saddr := nat.
(** Entry of the slices links and children, of which one is nil. /repo/hamt/hamt.go:777-779 *)
Inductive hslot := HLink (a : laddr) | HShard (a : saddr).
(** A Shard object with its childer. /repo/hamt/hamt.go:60-89, 772-780. The slices belong to
    one childer only (they are made at lines 800, 803, 837, 838), so they are values. *)
Record scell := mkCell { c_size : Z; c_builder : option prefix; c_bf : bytes; c_key : bytes; c_val : option laddr; c_slots : list hslot }.
(** All objects. /repo/hamt/hamt.go:60-89 *)
Record heap := mkHeap { h_links : list link; h_shards : list scell }.

(** Allocation, reading and writing of objects; a bad address would be a nil pointer.
    /repo/hamt/hamt.go:122, 238, 262 *)
Definition new_link (l : link) : M heap laddr := fun h => (Ok (length (h_links h)), mkHeap (h_links h ++ [l]) (h_shards h)).
Definition new_shard (c : scell) : M heap saddr := fun h => (Ok (length (h_shards h)), mkHeap (h_links h) (h_shards h ++ [c])).
Definition get_link (a : laddr) : M heap link := fun h => match nth_error (h_links h) a with Some l => (Ok l, h) | None => (Panic, h) end.
Definition get_cell (a : saddr) : M heap scell := fun h => match nth_error (h_shards h) a with Some c => (Ok c, h) | None => (Panic, h) end.
Definition put_link (a : laddr) (l : link) : M heap unit := fun h => (Ok tt, mkHeap (set_nth a l (h_links h)) (h_shards h)).
Definition put_cell (a : saddr) (c : scell) : M heap unit := fun h => (Ok tt, mkHeap (h_links h) (set_nth a c (h_shards h))).
(** Several links: a decoded node. go-merkledag [DecodeProtobuf] *)
Fixpoint new_links (ls : list link) : M heap (list laddr) :=
  match ls with
  | [] => ret []
  | l :: r => do a <- new_link l ;; do ar <- new_links r ;; ret (a :: ar)
  end.

(** [lnk.Name = n]. /repo/hamt/hamt.go:408, 828 *)
Definition rename (a : laddr) (n : bytes) : M heap unit :=
  do l <- get_link a ;; put_link a (mkLink n (lsize l) (lto l)).

(** /repo/hamt/hamt.go:65-67, 113 *)
Definition c_lg2 (c : scell) : Z := match Logtwo (c_size c) with Ok n => n | _ => 0 end.
(** /repo/hamt/hamt.go:121, 125 *)
Definition c_pad (c : scell) : nat := length (hexX (c_size c - 1)).
(** /repo/hamt/hamt.go:762-764 *)
Definition c_prefix (c : scell) (idx : Z) : bytes := hexpad (c_pad c) idx.
(** /repo/hamt/hamt.go:53-55 *)
Definition c_isValue (c : scell) : bool := match c_key c, c_val c with _ :: _, Some _ => true | _, _ => false end.
(** /repo/hamt/hamt.go:845-853, 858-866 *)
Definition c_set_slots (bf : bytes) (l : list hslot) (c : scell) : scell := mkCell (c_size c) (c_builder c) bf (c_key c) (c_val c) l.
Definition c_set_slot (x : hslot) (i : Z) (c : scell) : scell := c_set_slots (c_bf c) (set_nth (Z.to_nat i) x (c_slots c)) c.
(** /repo/hamt/hamt.go:686 *)
Definition c_set_val (v : option laddr) (c : scell) : scell := mkCell (c_size c) (c_builder c) (c_bf c) (c_key c) v (c_slots c).
(** /repo/hamt/hamt.go:946-956 *)
Definition c_check (c : scell) (i : Z) : res unit := if (zlen (c_slots c) <=? i) || (i <? 0) then Err EInvalidChild else Ok tt.

(** /repo/hamt/hamt.go:112-137: the object, not yet allocated. *)
Definition hmakeShard (size : Z) (builder : option prefix) (key : bytes) (val : option laddr) : res scell :=
  let? _ := Logtwo size in
  let? bf := newChilder size in
  Ok (mkCell size builder bf key val []).
(** /repo/hamt/hamt.go:94-110 *)
Definition hNewShard (size : Z) (builder : option prefix) : M heap saddr := do c <- lift (hmakeShard size builder [] None) ;; new_shard c.

(** /repo/hamt/hamt.go:142-174, 799-808 for a node object with the given links. *)
Definition hNewHamtFromDag (p : prefix) (d : bytes) (las : list laddr) : M heap saddr :=
  do fsn <- lift (FSNodeFromBytes d) ;;
  if negb (getType fsn =? THAMTShard) then throw EHamtMalformed
  else if negb (getHashType fsn =? HashMurmur3) then throw EHamtMalformed
  else
    do ds <- lift (hmakeShard (i64 (getFanout fsn)) (Some p) [] None) ;;
    do bf <- lift (bf_setbytes (c_bf ds) (getData fsn)) ;;
    new_shard (mkCell (c_size ds) (Some p) bf [] None (map HLink las)).

(** /repo/hamt/hamt.go:336-344 *)
Definition hchildLinkType (c : scell) (l : link) : res bool :=
  if (length (lname l) <? c_pad c)%nat then Err EHamtMalformed else Ok (negb (length (lname l) =? c_pad c)%nat).

(** /repo/hamt/hamt.go:237-248 *)
Definition hmakeShardValue (c : scell) (la : laddr) : M heap saddr :=
  do l <- get_link la ;;
  do v <- lift (hmakeShard (c_size c) None [] None) ;;
  if (length (lname l) <? c_pad c)%nat then lift Panic
  else do la2 <- new_link l ;; new_shard (mkCell (c_size v) None (c_bf v) (skipn (c_pad c) (lname l)) (Some la2) []).

(** /repo/hamt/hamt.go:891-921: the node is fetched and decoded. *)
Definition hloadChild (w : world) (c : scell) (la : laddr) : M heap saddr :=
  do l <- get_link la ;;
  do isval <- lift (hchildLinkType c l) ;;
  if isval then hmakeShardValue c la
  else
    do nd <- lift (dserv_get w (lto l)) ;;
    match nd with
    | NRaw _ _ => throw ENotProtobuf
    | NProto p d ls => do las <- new_links ls ;; hNewHamtFromDag p d las
    end.

(** /repo/hamt/hamt.go:876-887 *)
Definition hget (w : world) (a : saddr) (i : Z) : M heap saddr :=
  do c <- get_cell a ;;
  do _ <- lift (c_check c i) ;;
  match nth_error (c_slots c) (Z.to_nat i) with
  | Some (HShard x) => ret x
  | Some (HLink la) =>
      do x <- hloadChild w c la ;;
      do _ <- put_cell a (c_set_slot (HShard x) i c) ;; ret x
  | None => lift Panic
  end.

(** /repo/hamt/hamt.go:823-843 *)
Definition hinsert (key : bytes) (lnk : option laddr) (idx : Z) (a : saddr) : M heap unit :=
  match lnk with
  | None => throw ENotExist
  | Some la =>
      do c <- get_cell a ;;
      do _ <- rename la (c_prefix c idx ++ key) ;;
      do i <- lift (bf_before (c_bf c) idx) ;;
      do v <- lift (hmakeShard 256 None key (Some la)) ;;
      do sd <- new_shard v ;;
      if zlen (c_slots c) <? i then lift Panic
      else
        do bf <- lift (bf_set (c_bf c) idx) ;;
        put_cell a (c_set_slots bf (ztake i (c_slots c) ++ HShard sd :: zdrop i (c_slots c)) c)
  end.

(** /repo/hamt/hamt.go:855-871 *)
Definition hrm (idx : Z) (a : saddr) : M heap unit :=
  do c <- get_cell a ;;
  do i <- lift (bf_before (c_bf c) idx) ;;
  do _ <- lift (c_check c i) ;;
  do bf <- lift (bf_unset (c_bf c) idx) ;;
  put_cell a (c_set_slots bf (ztake i (c_slots c) ++ zdrop (i + 1) (c_slots c)) c).

(** [ds.childer.set(sd, i)], [setLink]. /repo/hamt/hamt.go:845-853 *)
Definition hset (x : hslot) (i : Z) (a : saddr) : M heap unit := do c <- get_cell a ;; put_cell a (c_set_slot x i c).

Section Hash.
  (** As in Hamt.v: the hash function. /repo/hamt/hamt.go:50 *)
  Variable hash : bytes -> bytes.

  (** /repo/hamt/hamt.go:641-759 *)
  Fixpoint hswapValue (fuel : nat) (w : world) (hv : hashBits) (key : bytes) (value : option laddr) (a : saddr) {struct fuel} : M heap (option laddr) :=
    match fuel with
    | O => lift Fuel
    | S f =>
        do ds <- get_cell a ;;
        do (idx, hv1) <- lift (Next hv (c_lg2 ds)) ;;
        do h <- lift (bf_bit (c_bf ds) idx) ;;
        if negb h then
          do _ <- hinsert key value idx a ;; ret None
        else
          do i <- lift (bf_before (c_bf ds) idx) ;;
          do child <- hget w a i ;;
          do cc <- get_cell child ;;
          if c_isValue cc then
            if bytes_eqb (c_key cc) key then
              match value with
              | None => do _ <- hrm idx a ;; ret (c_val cc)
              | Some _ => do _ <- put_cell child (c_set_val value cc) ;; ret (c_val cc)
              end
            else
              match value with
              | None => throw ENotExist
              | Some _ =>
                  do fresh <- hNewShard (c_size ds) (c_builder ds) ;;
                  do _ <- hswapValue f w hv1 key value fresh ;;
                  do _ <- hswapValue f w (newConsumedHashBits hash (c_key cc) (hb_consumed hv1)) (c_key cc) (c_val cc) fresh ;;
                  do _ <- hset (HShard fresh) i a ;; ret None
              end
          else
            do oldValue <- hswapValue f w hv1 key value child ;;
            match value with
            | Some _ => ret oldValue
            | None =>
                do cc1 <- get_cell child ;;
                match c_slots cc1 with
                | [] => do _ <- hrm idx a ;; ret oldValue
                | [HShard schild] =>
                    do sc <- get_cell schild ;;
                    if c_isValue sc then do _ <- hset (HShard schild) i a ;; ret oldValue
                    else ret oldValue
                | [HLink slnk] =>
                    do l <- get_link slnk ;;
                    do isval <- lift (hchildLinkType cc1 l) ;;
                    if isval then do _ <- hset (HLink slnk) i a ;; ret oldValue
                    else ret oldValue
                | _ => ret oldValue
                end
            end
    end.

  (** /repo/hamt/hamt.go:259-274: the link given is copied. *)
  Definition hSetLink (w : world) (name : bytes) (lnk : laddr) (a : saddr) : M heap unit :=
    do ds <- get_cell a ;;
    do l <- get_link lnk ;;
    do v <- new_link (mkLink (c_prefix ds 0 ++ name) (lsize l) (lto l)) ;;
    do _ <- hswapValue (hfuel hash name) w (newHashBits hash name) name (Some v) a ;; ret tt.
  (** /repo/hamt/hamt.go:307-310 *)
  Definition hTake (w : world) (name : bytes) (a : saddr) : M heap (option laddr) :=
    hswapValue (hfuel hash name) w (newHashBits hash name) name None a.
  (** /repo/hamt/hamt.go:279-296; [w] after the node has been added *)
  Definition hSwapLink (w : world) (name : bytes) (nd : node) (a : saddr) : M heap (option laddr) :=
    do ds <- get_cell a ;;
    do v <- new_link (make_link (c_prefix ds 0 ++ name) nd) ;;
    hswapValue (hfuel hash name) w (newHashBits hash name) name (Some v) a.
  Definition hSwap (name : bytes) (nd : node) (a : saddr) : M (heap * world) (option laddr) := fun hw =>
    let (h, w) := hw in
    match dserv_add nd None w with
    | (Ok _, w1) => let (r, h1) := hSwapLink w1 name nd a h in (r, (h1, w1))
    | (Err e, w1) => (Err e, (h, w1))
    | (Panic, w1) => (Panic, (h, w1))
    | (Fuel, w1) => (Fuel, (h, w1))
    end.

  (** /repo/hamt/hamt.go:365-387 with the callback of Find, 316-320 *)
  Fixpoint hgetValue (fuel : nat) (w : world) (hv : hashBits) (key : bytes) (a : saddr) {struct fuel} : M heap (option laddr) :=
    match fuel with
    | O => lift Fuel
    | S f =>
        do ds <- get_cell a ;;
        do (idx, hv1) <- lift (Next hv (c_lg2 ds)) ;;
        do h <- lift (bf_bit (c_bf ds) idx) ;;
        if h then
          do i <- lift (bf_before (c_bf ds) idx) ;;
          do child <- hget w a i ;;
          do cc <- get_cell child ;;
          if c_isValue cc then
            if bytes_eqb (c_key cc) key then ret (c_val cc) else throw ENotExist
          else hgetValue f w hv1 key child
        else throw ENotExist
    end.
  (** /repo/hamt/hamt.go:313-326 *)
  Definition hFind (w : world) (name : bytes) (a : saddr) : M heap (option laddr) :=
    hgetValue (hfuel hash name) w (newHashBits hash name) name a.
End Hash.

(** ** Walking *)

(** Fuel: more than the depth of any directory in the heap, loaded or not. *)
Definition hbound (h : heap) : nat := S (length (h_shards h) + fold_right (fun l m => Nat.max (nheight (lto l)) m) O (h_links h)).
(** The function given to ForEachLink: what it does with a link, after the links seen before
    (newest first). It may do anything with the heap, also use the directory that is being
    walked. /repo/hamt/hamt.go:405 *)
Definition hcallback := list laddr -> laddr -> M heap unit.
(** /repo/hamt/hamt.go:405-412, 624-637, 931-944: the number of children is read once, the
    children themselves when their turn comes. The state has the links delivered. *)
Definition hdeliver (cb : hcallback) (v : laddr) (key : bytes) : M (heap * list laddr) unit := fun st =>
  let (h, acc) := st in
  match rename v key h with
  | (Ok _, h1) => let (r, h2) := cb acc v h1 in (r, (h2, v :: acc))
  | (Err e, h1) => (Err e, (h1, acc))
  | (Panic, h1) => (Panic, (h1, acc))
  | (Fuel, h1) => (Fuel, (h1, acc))
  end.
(** A step that delivers nothing. *)
Definition on_heap {A} (m : M heap A) : M (heap * list laddr) A := fun st => let (r, h1) := m (fst st) in (r, (h1, snd st)).
Fixpoint hwalkTrie (fuel : nat) (w : world) (cb : hcallback) (a : saddr) {struct fuel} : M (heap * list laddr) unit :=
  match fuel with
  | O => lift Fuel
  | S f =>
      do c0 <- on_heap (get_cell a) ;;
      (fix each (n : nat) (i : Z) {struct n} : M (heap * list laddr) unit :=
         match n with
         | O => ret tt
         | S m =>
             do x <- on_heap (hget w a i) ;;
             do c <- on_heap (get_cell x) ;;
             do _ <- match (if c_isValue c then c_val c else None) with
                     | Some v => hdeliver cb v (c_key c)
                     | None => hwalkTrie f w cb x
                     end ;;
             each m (i + 1)
         end) (length (c_slots c0)) 0
  end.
(** /repo/hamt/hamt.go:405-412 *)
Definition hForEachLink (w : world) (cb : hcallback) (a : saddr) : M (heap * list laddr) unit := fun st => hwalkTrie (hbound (fst st)) w cb a st.

(** ** Serialisation *)

(** /repo/hamt/hamt.go:187-235, 347-363: objects are only read (AddRawLink of go-merkledag
    copies the link); the node made is a value here. *)
Fixpoint hNode (fuel : nat) (h : heap) (a : saddr) {struct fuel} : M world node :=
  match fuel with
  | O => lift Fuel
  | S f =>
      match nth_error (h_shards h) a with
      | None => lift Panic
      | Some c =>
          do idxs <- lift (set_bits (c_bf c) 0 (Z.to_nat (c_size c))) ;;
          do ls <- (fix go (slots : list hslot) (idxs : list Z) {struct slots} : M world (list link) :=
              match idxs with
              | [] => ret []
              | idx :: ir =>
                  match slots with
                  | [] => lift Panic
                  | x :: sr =>
                      do l <- (match x with
                               | HShard ch =>
                                   match nth_error (h_shards h) ch with
                                   | None => lift Panic
                                   | Some cc =>
                                       do cl <- (match (if c_isValue cc then c_val cc else None) with
                                                 | Some la => match nth_error (h_links h) la with Some v => ret v | None => lift Panic end
                                                 | None =>
                                                     do nd <- hNode f h ch ;;
                                                     do _ <- dserv_add nd None ;;
                                                     ret (make_link [] nd)
                                                 end) ;;
                                       ret (mkLink (c_prefix c idx ++ c_key cc) (lsize cl) (lto cl))
                                   end
                               | HLink la =>
                                   match nth_error (h_links h) la with
                                   | None => lift Panic
                                   | Some l =>
                                       if (length (lname l) <? c_pad c)%nat then lift Panic
                                       else ret (mkLink (c_prefix c idx ++ skipn (c_pad c) (lname l)) (lsize l) (lto l))
                                   end
                               end) ;;
                      do r <- go sr ir ;;
                      ret (l :: r)
                  end
              end) (c_slots c) idxs ;;
          do data <- lift (HAMTShardData (bf_bytes (c_bf c)) (u64 (c_size c)) HashMurmur3) ;;
          let out := NProto (proto_prefix (c_builder c)) data ls in
          do _ <- dserv_add out None ;;
          ret (seal out)
      end
  end.
