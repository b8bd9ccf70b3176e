(** Model of /repo/hamt/hamt.go: the sharded directory.

    A Go shard is a pointer structure that is only ever a tree, so it is a value
    here and the operations return the changed shard. The DAG service is the
    [world] of Dag.v. *)
From Verif Require Import Base Pb FSNode Dag Builder HashBits Bitfield.

(** /repo/hamt/hamt.go:772-780: entry [i] of the slices [links] and [children], of
    which exactly one is not nil. The code keeps the two slices equally long. *)
Inductive slot (T : Type) := SLink (l : link) | SShard (s : T).
Arguments SLink {T} l.
Arguments SShard {T} s.

(** /repo/hamt/hamt.go:60-89 with its childer. tableSizeLg2, prefixPadStr and maxpadlen
    are functions of the size; the hash function is always murmur3. *)
Inductive shard :=
  mkShard (size : Z) (builder : option prefix) (bf : bytes) (key : bytes) (val : option link) (slots : list (slot shard)).
(** Field access. /repo/hamt/hamt.go:60-89, 772-780 *)
Definition s_size (s : shard) := let (z, _, _, _, _, _) := s in z.
Definition s_builder (s : shard) := let (_, b, _, _, _, _) := s in b.
Definition s_bf (s : shard) := let (_, _, f, _, _, _) := s in f.
Definition s_key (s : shard) := let (_, _, _, k, _, _) := s in k.
Definition s_val (s : shard) := let (_, _, _, _, v, _) := s in v.
Definition s_slots (s : shard) := let (_, _, _, _, _, l) := s in l.
Definition set_slots (bf : bytes) (l : list (slot shard)) (s : shard) :=
  mkShard (s_size s) (s_builder s) bf (s_key s) (s_val s) l.
(** /repo/hamt/hamt.go:177-179 *)
Definition SetCidBuilder (b : option prefix) (s : shard) :=
  mkShard (s_size s) b (s_bf s) (s_key s) (s_val s) (s_slots s).
Definition set_val (v : option link) (s : shard) :=
  mkShard (s_size s) (s_builder s) (s_bf s) (s_key s) v (s_slots s).

(** /repo/hamt/hamt.go:65-67, 113 *)
Definition tableSizeLg2 (s : shard) : Z := match Logtwo (s_size s) with Ok n => n | _ => 0 end.
(** /repo/hamt/hamt.go:121, 125 *)
Definition maxpadlen (s : shard) : nat := length (hexX (s_size s - 1)).
(** /repo/hamt/hamt.go:762-764 *)
Definition linkNamePrefix (s : shard) (idx : Z) : bytes := hexpad (maxpadlen s) idx.

(** /repo/hamt/hamt.go:46 *)
Definition HashMurmur3 : Z := 34.
(** /repo/hamt/hamt.go:782 *)
Definition maximumHamtWidth : Z := 1024.

(** /repo/hamt/hamt.go:53-55 *)
Definition isValueNode (s : shard) : bool :=
  match s_key s, s_val s with _ :: _, Some _ => true | _, _ => false end.

(** /repo/hamt/hamt.go:784-797: the empty bitmap. *)
Definition newChilder (size : Z) : res bytes :=
  if maximumHamtWidth <? size then Err EBadWidth else NewBitfield size.

(** /repo/hamt/hamt.go:112-137 *)
Definition makeShard (size : Z) (key : bytes) (val : option link) : res shard :=
  let? _ := Logtwo size in
  let? bf := newChilder size in
  Ok (mkShard size None bf key val []).
(** /repo/hamt/hamt.go:101-110 *)
Definition NewShardValue (size : Z) (key : bytes) (val : option link) : res shard := makeShard size key val.
(** /repo/hamt/hamt.go:94-96 *)
Definition NewShard (size : Z) : res shard := NewShardValue size [] None.

(** /repo/hamt/hamt.go:142-174, 799-808 *)
Definition NewHamtFromDag (nd : node) : res shard :=
  match nd with
  | NRaw _ _ => Err ENotProtobuf
  | NProto p d ls =>
      let? fsn := FSNodeFromBytes d in
      if negb (getType fsn =? THAMTShard) then Err EHamtMalformed
      else if negb (getHashType fsn =? HashMurmur3) then Err EHamtMalformed
      else
        let? ds := makeShard (i64 (getFanout fsn)) [] None in
        let? bf := bf_setbytes (s_bf ds) (getData fsn) in
        Ok (mkShard (s_size ds) (Some p) bf [] None (map SLink ls))
  end.

(** ** Children *)

(** Kind of a link. /repo/hamt/hamt.go:328-344 *)
Definition childLinkType (s : shard) (l : link) : res bool :=
  if (length (lname l) <? maxpadlen s)%nat then Err EHamtMalformed
  else Ok (negb (length (lname l) =? maxpadlen s)%nat).

(** /repo/hamt/hamt.go:237-248; [lnk.Name[maxpadlen:]] panics if the name is short. *)
Definition makeShardValue (s : shard) (l : link) : res shard :=
  let? v := makeShard (s_size s) [] None in
  if (length (lname l) <? maxpadlen s)%nat then Panic
  else Ok (mkShard (s_size v) (s_builder v) (s_bf v) (skipn (maxpadlen s) (lname l)) (Some l) (s_slots v)).

(** /repo/hamt/hamt.go:923-925 *)
Definition has (s : shard) (childIndex : Z) : res bool := bf_bit (s_bf s) childIndex.
(** /repo/hamt/hamt.go:811-813 *)
Definition sliceIndex (s : shard) (childIndex : Z) : res Z := bf_before (s_bf s) childIndex.
(** /repo/hamt/hamt.go:946-956 *)
Definition check (s : shard) (i : Z) : res unit :=
  if (zlen (s_slots s) <=? i) || (i <? 0) then Err EInvalidChild else Ok tt.

(** /repo/hamt/hamt.go:845-853 *)
Definition set_child (x : slot shard) (i : Z) (s : shard) : shard :=
  set_slots (s_bf s) (set_nth (Z.to_nat i) x (s_slots s)) s.

(** /repo/hamt/hamt.go:823-843. With a bitmap that does not fit the links Go may
    panic on the slices or pick up stale elements; a panic here. *)
Definition insert (key : bytes) (lnk : option link) (idx : Z) (s : shard) : res shard :=
  match lnk with
  | None => Err ENotExist
  | Some l =>
      let? i := sliceIndex s idx in
      let? sd := NewShardValue 256 key (Some (mkLink (linkNamePrefix s idx ++ key) (lsize l) (lto l))) in
      if zlen (s_slots s) <? i then Panic
      else
        let? bf := bf_set (s_bf s) idx in
        Ok (set_slots bf (ztake i (s_slots s) ++ SShard sd :: zdrop i (s_slots s)) s)
  end.

(** /repo/hamt/hamt.go:855-871 *)
Definition rm (idx : Z) (s : shard) : res shard :=
  let? i := sliceIndex s idx in
  let? _ := check s i in
  let? bf := bf_unset (s_bf s) idx in
  Ok (set_slots bf (ztake i (s_slots s) ++ zdrop (i + 1) (s_slots s)) s).

(** /repo/hamt/hamt.go:891-921 *)
Definition loadChild (w : world) (s : shard) (l : link) : res shard :=
  let? isval := childLinkType s l in
  if isval then makeShardValue s l
  else let? nd := dserv_get w (lto l) in NewHamtFromDag nd.

(** The child, and the shard with the child cached. /repo/hamt/hamt.go:876-887 *)
Definition get_child (w : world) (i : Z) : M shard shard := fun s =>
  match check s i with
  | Ok _ =>
      match nth_error (s_slots s) (Z.to_nat i) with
      | Some (SShard c) => (Ok c, s)
      | Some (SLink l) =>
          match loadChild w s l with
          | Ok c => (Ok c, set_child (SShard c) i s)
          | Err e => (Err e, s)
          | Panic => (Panic, s)
          | Fuel => (Fuel, s)
          end
      | None => (Panic, s)
      end
  | Err e => (Err e, s)
  | Panic => (Panic, s)
  | Fuel => (Fuel, s)
  end.

(** Updating a shard with a function that leaves it unchanged if it fails (as [insert]
    and [rm] do, /repo/hamt/hamt.go:823-871). *)
Definition upd_shard (f : shard -> res shard) : M shard unit := fun s =>
  match f s with
  | Ok s' => (Ok tt, s')
  | Err e => (Err e, s)
  | Panic => (Panic, s)
  | Fuel => (Fuel, s)
  end.
(** Reading the shard. *)
Definition get_shard : M shard shard := fun s => (Ok s, s).
(** Running an operation on child [i] of the shard, which is replaced by the changed
    child: in Go the child is changed in place. /repo/hamt/hamt.go:382, 713 *)
Definition on_child {A} (i : Z) (c : shard) (m : M shard A) : M shard (A * shard) := fun s =>
  match m c with
  | (Ok a, c') => (Ok (a, c'), set_child (SShard c') i s)
  | (Err e, c') => (Err e, set_child (SShard c') i s)
  | (Panic, c') => (Panic, set_child (SShard c') i s)
  | (Fuel, c') => (Fuel, set_child (SShard c') i s)
  end.

Section Hash.
  (** The hash function, internal.HAMTHashFunction (/repo/hamt/hamt.go:50;
      murmur3 in production). *)
  Variable hash : bytes -> bytes.

  (** /repo/hamt/util.go:18-26 *)
  Definition newHashBits (name : bytes) : hashBits := mkHB (hash name) 0.
  Definition newConsumedHashBits (name : bytes) (consumed : Z) : hashBits := mkHB (hash name) consumed.

  (** /repo/hamt/hamt.go:641-759. [hv] after the call is not used by any caller, so it
      is not returned. The name change that [insert] makes to the old entry's link when
      forking is only kept if the fork succeeds (simplification: the link name of a
      value is only returned, and its length counted by io.HAMTDirectory). *)
  Fixpoint swapValue (fuel : nat) (w : world) (hv : hashBits) (key : bytes) (value : option link) {struct fuel} : M shard (option link) :=
    match fuel with
    | O => lift Fuel
    | S f =>
        do ds <- get_shard ;;
        do (idx, hv1) <- lift (Next hv (tableSizeLg2 ds)) ;;
        do h <- lift (has ds idx) ;;
        if negb h then
          do _ <- upd_shard (insert key value idx) ;; ret None
        else
          do i <- lift (sliceIndex ds idx) ;;
          do child <- get_child w i ;;
          if isValueNode child then
            if bytes_eqb (s_key child) key then
              let oldValue := s_val child in
              match value with
              | None => do _ <- upd_shard (rm idx) ;; ret oldValue
              | Some _ => do _ <- upd_shard (fun s => Ok (set_child (SShard (set_val value child)) i s)) ;; ret oldValue
              end
            else
              match value with
              | None => throw ENotExist
              | Some _ =>
                  do fresh <- lift (NewShard (s_size ds)) ;;
                  let fresh := SetCidBuilder (s_builder ds) fresh in
                  let chhv := newConsumedHashBits (s_key child) (hb_consumed hv1) in
                  match swapValue f w hv1 key value fresh with
                  | (Ok _, fresh1) =>
                      match swapValue f w chhv (s_key child) (s_val child) fresh1 with
                      | (Ok _, fresh2) =>
                          do _ <- upd_shard (fun s => Ok (set_child (SShard fresh2) i s)) ;; ret None
                      | (Err e, _) => throw e
                      | (Panic, _) => lift Panic
                      | (Fuel, _) => lift Fuel
                      end
                  | (Err e, _) => throw e
                  | (Panic, _) => lift Panic
                  | (Fuel, _) => lift Fuel
                  end
              end
          else
            do (oldValue, child') <- on_child i child (swapValue f w hv1 key value) ;;
            match value with
            | Some _ => ret oldValue
            | None =>
                match s_slots child' with
                | [] => do _ <- upd_shard (rm idx) ;; ret oldValue
                | [SShard schild] =>
                    if isValueNode schild then
                      do _ <- upd_shard (fun s => Ok (set_child (SShard schild) i s)) ;; ret oldValue
                    else ret oldValue
                | [SLink slnk] =>
                    do isval <- lift (childLinkType child' slnk) ;;
                    if isval then
                      do _ <- upd_shard (fun s => Ok (set_child (SLink slnk) i s)) ;; ret oldValue
                    else ret oldValue
                | _ => ret oldValue
                end
            end
    end.

  (** Fuel for a name: one more than the number of its hash bits, as each level uses
      at least one. *)
  Definition hfuel (name : bytes) : nat := S (8 * length (hash name)).

  (** /repo/hamt/hamt.go:259-274 *)
  Definition SetLink (w : world) (name : bytes) (lnk : link) : M shard unit :=
    do ds <- get_shard ;;
    let newLink := mkLink (linkNamePrefix ds 0 ++ name) (lsize lnk) (lto lnk) in
    do _ <- swapValue (hfuel name) w (newHashBits name) name (Some newLink) ;; ret tt.

  (** /repo/hamt/hamt.go:307-310 *)
  Definition Take (w : world) (name : bytes) : M shard (option link) :=
    swapValue (hfuel name) w (newHashBits name) name None.
  (** /repo/hamt/hamt.go:300-303 *)
  Definition Remove (w : world) (name : bytes) : M shard unit :=
    do _ <- Take w name ;; ret tt.

  (** /repo/hamt/hamt.go:279-296 *)
  Definition Swap (name : bytes) (nd : node) : M (shard * world) (option link) := fun sw =>
    let (s, w) := sw in
    match dserv_add nd None w with
    | (Ok _, w1) =>
        let l := make_link (linkNamePrefix s 0 ++ name) nd in
        let (r, s1) := swapValue (hfuel name) w1 (newHashBits name) name (Some l) s in (r, (s1, w1))
    | (Err e, w1) => (Err e, (s, w1))
    | (Panic, w1) => (Panic, (s, w1))
    | (Fuel, w1) => (Fuel, (s, w1))
    end.
  (** /repo/hamt/hamt.go:251-254 *)
  Definition Set_ (name : bytes) (nd : node) : M (shard * world) unit :=
    do _ <- Swap name nd ;; ret tt.

  (** /repo/hamt/hamt.go:365-387 with the callback of Find, 316-320. *)
  Fixpoint getValue (fuel : nat) (w : world) (hv : hashBits) (key : bytes) {struct fuel} : M shard (option link) :=
    match fuel with
    | O => lift Fuel
    | S f =>
        do ds <- get_shard ;;
        do (idx, hv1) <- lift (Next hv (tableSizeLg2 ds)) ;;
        do h <- lift (has ds idx) ;;
        if h then
          do i <- lift (sliceIndex ds idx) ;;
          do child <- get_child w i ;;
          if isValueNode child then
            if bytes_eqb (s_key child) key then ret (s_val child) else throw ENotExist
          else
            do (r, _) <- on_child i child (getValue f w hv1 key) ;; ret r
        else throw ENotExist
    end.
  (** /repo/hamt/hamt.go:313-326 *)
  Definition Find (w : world) (name : bytes) : M shard (option link) :=
    getValue (hfuel name) w (newHashBits name) name.
End Hash.

(** ** Serialisation *)

(** Indices of the set bits below the table size. /repo/hamt/hamt.go:193-196 *)
Fixpoint set_bits (bf : bytes) (from : Z) (n : nat) : res (list Z) :=
  match n with
  | O => Ok []
  | S m => let? b := bf_bit bf from in let? r := set_bits bf (from + 1) m in Ok (if b then from :: r else r)
  end.

(** /repo/hamt/hamt.go:187-235 with Link (347-363) for the children: the sub-shard's
    node is added twice. The slots are taken in step with the set bits. *)
Fixpoint Node (ds : shard) {struct ds} : M world node :=
  let (size, builder, bf, _, _, slots) := ds in
  do idxs <- lift (set_bits bf 0 (Z.to_nat size)) ;;
  let pad := length (hexX (size - 1)) in
  do ls <- (fix go (slots : list (slot shard)) (idxs : list Z) {struct slots} : M world (list link) :=
      match idxs with
      | [] => ret []
      | idx :: ir =>
          match slots with
          | [] => lift Panic
          | x :: sr =>
              do l <- (match x with
                       | SShard ch =>
                           do cl <- (match (if isValueNode ch then s_val ch else None) with
                                     | Some v => ret v
                                     | None =>
                                         do nd <- Node ch ;;
                                         do _ <- dserv_add nd None ;;
                                         ret (make_link [] nd)
                                     end) ;;
                           ret (mkLink (hexpad pad idx ++ s_key ch) (lsize cl) (lto cl))
                       | SLink l =>
                           if (length (lname l) <? pad)%nat then lift Panic
                           else ret (mkLink (hexpad pad idx ++ skipn pad (lname l)) (lsize l) (lto l))
                       end) ;;
              do r <- go sr ir ;;
              ret (l :: r)
          end
      end) slots idxs ;;
  do data <- lift (HAMTShardData (bf_bytes bf) (u64 size) HashMurmur3) ;;
  let out := NProto (proto_prefix builder) data ls in
  do _ <- dserv_add out None ;;
  ret (seal out).

(** ** Enumeration *)

(** Bound for the depth of a shard with its unloaded parts. *)
Fixpoint nheight (n : node) : nat :=
  match n with
  | NRaw _ _ => 1
  | NProto _ _ ls => S (fold_right (fun l m => Nat.max (nheight (lto l)) m) O ls)
  end.
Fixpoint sheight (s : shard) : nat :=
  let (_, _, _, _, _, slots) := s in
  S (fold_right (fun x m => Nat.max (match x with SLink l => nheight (lto l) | SShard c => sheight c end) m) O slots).

(** The function given to ForEachLink: may return an error depending on the links seen
    so far (newest first). It must not use the directory itself. *)
Definition callback := list link -> link -> option err.

(** State of a walk: the shard and the links delivered (newest first).
    /repo/hamt/hamt.go:624-637, 931-944 with the callback of ForEachLink (405-412), which
    renames the value's link. The children are visited in slice order. *)
Fixpoint walkTrie (fuel : nat) (w : world) (cb : callback) {struct fuel} : M (shard * list link) unit :=
  match fuel with
  | O => lift Fuel
  | S f => fun st0 =>
      (fix each (n : nat) (i : Z) (st : shard * list link) {struct n} : res unit * (shard * list link) :=
         match n with
         | O => (Ok tt, st)
         | S m =>
             let (s, acc) := st in
             match get_child w i s with
             | (Ok c, s1) =>
                 match (if isValueNode c then s_val c else None) with
                 | Some v =>
                     let lnk := mkLink (s_key c) (lsize v) (lto v) in
                     let s2 := set_child (SShard (set_val (Some lnk) c)) i s1 in
                     match cb acc lnk with
                     | Some e => (Err e, (s2, lnk :: acc))
                     | None => each m (i + 1) (s2, lnk :: acc)
                     end
                 | None =>
                     match walkTrie f w cb (c, acc) with
                     | (Ok _, (c', acc')) => each m (i + 1) (set_child (SShard c') i s1, acc')
                     | (Err e, (c', acc')) => (Err e, (set_child (SShard c') i s1, acc'))
                     | (Panic, (c', acc')) => (Panic, (set_child (SShard c') i s1, acc'))
                     | (Fuel, (c', acc')) => (Fuel, (set_child (SShard c') i s1, acc'))
                     end
                 end
             | (Err e, s1) => (Err e, (s1, acc))
             | (Panic, s1) => (Panic, (s1, acc))
             | (Fuel, s1) => (Fuel, (s1, acc))
             end
         end) (length (s_slots (fst st0))) 0 st0
  end.
(** /repo/hamt/hamt.go:405-412 *)
Definition ForEachLink (w : world) (cb : callback) : M (shard * list link) unit := fun st =>
  walkTrie (sheight (fst st)) w cb st.
