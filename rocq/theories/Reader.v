(** Model of /repo/io/dagreader.go and of the DAG walker it uses.

    The walker is go-ipld-format v0.2.0 [Walker] / [NavigableIPLDNode] (not in
    /repo); comments name its functions. Preloading of children is not modelled, a
    fetch is a single [dserv_get]. *)
From Verif Require Import Base Pb FSNode Dag.

(** ** Walker *)

(** [path] and [childIndex] of the Walker up to [currentDepth], innermost first;
    the empty list is [currentDepth == -1]. *)
Definition stack := list (node * nat).

(** Result of moving down without the visit. *)
Inductive dres := DNoChild | DErr (e : err) | DNode (n : node) | DPanic | DFuel.

(** [Walker.fetchChild]. *)
Definition fetch_child (w : world) (root : node) (st : stack) : dres :=
  match st with
  | [] => DNode root
  | (n, i) :: _ =>
      match nth_error (node_links n) i with
      | None => DNoChild
      | Some l => match dserv_get w (lto l) with
                  | Ok c => DNode c
                  | Err e => DErr e
                  | Panic => DPanic
                  | Fuel => DFuel
                  end
      end
  end.

(** [Walker.NextChild] on a frame: the new index, and whether there is a child there. *)
Definition next_index (n : node) (i : nat) : nat :=
  if (S i <=? length (node_links n))%nat then S i else i.

(** The inner loop of [Walker.Iterate]: NextChild, going up while there is none;
    [false] is EndOfDag. *)
Fixpoint next_up (st : stack) : bool * stack :=
  match st with
  | [] => (false, [])
  | (n, i) :: r =>
      let i' := next_index n i in
      if (i' =? length (node_links n))%nat then
        match r with
        | [] => (false, [(n, i')])
        | _ :: _ => next_up r
        end
      else (true, (n, i') :: r)
  end.

(** Number of steps an iteration can take. *)
Fixpoint weight (n : node) : nat :=
  match n with
  | NRaw _ _ => 2
  | NProto _ _ ls => S (S (fold_right (fun l a => weight (lto l) + a) 0 ls))
  end%nat.

Section Iterate.
  Context {T : Type}.
  Variables (w : world) (root : node).
  (** The visitor; [Ok true] asks for a pause ([Walker.Pause]). *)
  Variable visit : node -> T -> res bool * T.

  (** [Walker.Iterate]: [Ok true] is a pause (nil error), [Ok false] is EndOfDag. *)
  Fixpoint iterate (fuel : nat) (st : stack) (s : T) : res bool * stack * T :=
    match fuel with
    | O => (Fuel, st, s)
    | S f =>
        match fetch_child w root st with
        | DErr e => (Err e, st, s)
        | DPanic => (Panic, st, s)
        | DFuel => (Fuel, st, s)
        | DNode n =>
            let st' := (n, O) :: st in
            match visit n s with
            | (Ok false, s') => iterate f st' s'
            | (r, s') => (r, st', s')
            end
        | DNoChild =>
            match next_up st with
            | (true, st') => iterate f st' s
            | (false, st') => (Ok false, st', s)
            end
        end
    end.
End Iterate.

(** Steps for one call of [iterate]. The frames of the walker are counted as well: they
    need not be below the root if the root was changed in place (Modifier.v). *)
Definition walk_fuel (root : node) (st : stack) : nat :=
  S (S (weight root + fold_right (fun f a => weight (fst f) + a) 0 st))%nat.

(** ** dagReader *)

(** A bytes.Reader: contents and index (which may be past the end after Seek). *)
Definition breader := (bytes * Z)%type.
Definition br_rest (b : breader) : bytes := if zlen (fst b) <=? snd b then [] else zdrop (snd b) (fst b).

(** /repo/io/dagreader.go:112-144 *)
Record reader := mkReader {
  r_root : node;
  r_size : Z;
  r_off : Z;
  r_stack : stack;
  r_data : option breader
}.

(** /repo/io/dagreader.go:55-109; other node implementations are not modelled. *)
Fixpoint NewDagReader (w : world) (n : node) : res reader :=
  match n with
  | NRaw _ d => Ok (mkReader n (u64 (zlen d)) 0 [] None)
  | NProto _ b ls =>
      let? fs := FSNodeFromBytes b in
      let t := getType fs in
      if (t =? TFile) || (t =? TRaw) then Ok (mkReader n (FileSize fs) 0 [] None)
      else if (t =? TDirectory) || (t =? THAMTShard) then Err EIsDir
      else if t =? TMetadata then
        match ls with
        | [] => Err EMetaNoLinks
        | l :: _ =>
            let? _ := dserv_get w (lto l) in
            match lto l with
            | NRaw _ _ => Err ENotProtobuf
            | NProto _ _ _ => NewDagReader w (lto l)
            end
        end
      else if t =? TSymlink then Err ECantReadSymlinks
      else Err EUnrecData
  end.

(** /repo/io/dagreader.go:147-149 *)
Definition Size (r : reader) : Z := r_size r.

(** [bytes.Reader.Read] into [k] bytes plus the bookkeeping of readNodeDataBuffer
    (/repo/io/dagreader.go:239-258): data read and what is left. *)
Definition take_buffer (k : nat) (b : breader) : bytes * option breader :=
  let out := firstn k (br_rest b) in
  let b' := (fst b, snd b + zlen out) in
  (out, if (zlen (br_rest b') =? 0) then None else Some b').

(** State of CtxReadFull during the iteration: data read so far, free places in
    [out], offset, currentNodeData. *)
Record rstate := mkRs { rs_out : bytes; rs_room : nat; rs_off : Z; rs_data : option breader }.

(** readNodeDataBuffer(out[n:]). /repo/io/dagreader.go:239-258 *)
Definition read_buffer (b : breader) (s : rstate) : rstate :=
  let (m, d) := take_buffer (rs_room s) b in
  mkRs (rs_out s ++ m) (rs_room s - length m) (rs_off s + zlen m) d.

(** The visitor of CtxReadFull. /repo/io/dagreader.go:182-211, saveNodeData 226-234 *)
Definition read_visit (n : node) (s : rstate) : res bool * rstate :=
  match node_links n with
  | _ :: _ => (Ok false, s)
  | [] =>
      match ReadUnixFSNodeData n with
      | Ok d => let s' := read_buffer (d, 0) s in (Ok (rs_room s' =? 0)%nat, s')
      | Err e => (Err e, s)
      | Panic => (Panic, s)
      | Fuel => (Fuel, s)
      end
  end.

(** End of CtxReadFull. /repo/io/dagreader.go:213-221 *)
Definition read_end (r : res bool) : res unit :=
  match r with
  | Ok true => Ok tt
  | Ok false => Err EEOF
  | Err e => Err e
  | Panic => Panic
  | Fuel => Fuel
  end.

(** /repo/io/dagreader.go:161-222: [k] is len(out); the result is the data put into
    [out] and the error. Read (153-155) is the same. *)
Definition CtxReadFull (w : world) (k : nat) (r : reader) : bytes * res unit * reader :=
  let go (s : rstate) :=
    let '(x, st, s') := iterate w (r_root r) read_visit (walk_fuel (r_root r) (r_stack r)) (r_stack r) s in
    (rs_out s', read_end x, mkReader (r_root r) (r_size r) (rs_off s') st (rs_data s')) in
  match r_data r with
  | Some b =>
      let s := read_buffer b (mkRs [] k (r_off r) None) in
      if (rs_room s =? 0)%nat
      then (rs_out s, Ok tt, mkReader (r_root r) (r_size r) (rs_off s) (r_stack r) (rs_data s))
      else go s
  | None => go (mkRs [] k (r_off r) None)
  end.
Definition Read := CtxReadFull.

(** ** WriteTo *)

(** A destination: for what it has received and the next slice, how many bytes it
    takes and whether it fails. *)
Definition writer := bytes -> bytes -> nat * bool.

(** State of WriteTo: data received by the destination, offset, currentNodeData. *)
Record wstate := mkWs { ws_out : bytes; ws_off : Z; ws_data : option breader }.

(** writeNodeDataBuffer with [bytes.Reader.WriteTo]. /repo/io/dagreader.go:265-281.
    On an error neither the offset nor currentNodeData (beyond its index) is updated. *)
Definition write_buffer (wr : writer) (b : breader) (s : wstate) : res unit * wstate :=
  let rest := br_rest b in
  match rest with
  | [] => (Ok tt, mkWs (ws_out s) (ws_off s) None)
  | _ :: _ =>
      let (m0, fail) := wr (ws_out s) rest in
      let m := Nat.min m0 (length rest) in
      let b' := (fst b, snd b + Z.of_nat m) in
      let out := ws_out s ++ firstn m rest in
      if fail || negb (m =? length rest)%nat
      then (Err EWrite, mkWs out (ws_off s) (Some b'))
      else (Ok tt, mkWs out (ws_off s + Z.of_nat m) None)
  end.

(** The visitor of WriteTo. /repo/io/dagreader.go:307-331 *)
Definition write_visit (wr : writer) (n : node) (s : wstate) : res bool * wstate :=
  match node_links n with
  | _ :: _ => (Ok false, s)
  | [] =>
      match ReadUnixFSNodeData n with
      | Ok d => match write_buffer wr (d, 0) s with
                | (Ok _, s') => (Ok false, s')
                | (Err e, s') => (Err e, s')
                | (Panic, s') => (Panic, s')
                | (Fuel, s') => (Fuel, s')
                end
      | Err e => (Err e, s)
      | Panic => (Panic, s)
      | Fuel => (Fuel, s)
      end
  end.

(** End of WriteTo. /repo/io/dagreader.go:333-337 *)
Definition write_end (r : res bool) : res unit :=
  match r with
  | Ok _ => Ok tt
  | Err e => Err e
  | Panic => Panic
  | Fuel => Fuel
  end.

(** /repo/io/dagreader.go:290-338: the result is the data received by the
    destination (its length is the returned count) and the error. *)
Definition WriteTo (w : world) (wr : writer) (r : reader) : bytes * res unit * reader :=
  let go (s : wstate) :=
    let '(x, st, s') := iterate w (r_root r) (write_visit wr) (walk_fuel (r_root r) (r_stack r)) (r_stack r) s in
    (ws_out s', write_end x, mkReader (r_root r) (r_size r) (ws_off s') st (ws_data s')) in
  match r_data r with
  | Some b =>
      match write_buffer wr b (mkWs [] (r_off r) None) with
      | (Ok _, s) => go s
      | (e, s) => (ws_out s, e, mkReader (r_root r) (r_size r) (ws_off s) (r_stack r) (ws_data s))
      end
  | None => go (mkWs [] (r_off r) None)
  end.

(** ** Seek *)

(** The loop over child sizes, starting at child [i]: what is left and the child
    index reached. /repo/io/dagreader.go:414-436 *)
Fixpoint seek_sizes (sizes : list Z) (left : Z) (i : nat) : Z * nat :=
  match sizes with
  | [] => (left, i)
  | s :: r => if left <? s then (left, i) else seek_sizes r (left - s) (S i)
  end.

(** [Walker.Seek] with the visitor of Seek: the result, the position of the walker
    and currentNodeData. /repo/io/dagreader.go:393-462 *)
Fixpoint seek_walk (fuel : nat) (w : world) (root : node) (st : stack) (left : Z) (d : option breader)
  : res unit * stack * option breader :=
  match fuel with
  | O => (Fuel, st, d)
  | S f =>
      match fetch_child w root st with
      | DNoChild => (Ok tt, st, d)
      | DErr e => (Err e, st, d)
      | DPanic => (Panic, st, d)
      | DFuel => (Fuel, st, d)
      | DNode n =>
          match node_links n with
          | _ :: _ =>
              match ExtractFSNode n with
              | Ok fs =>
                  if NumChildren fs =? zlen (node_links n) then
                    let (left', i) := seek_sizes (d_blocksizes fs) left 0 in
                    seek_walk f w root ((n, i) :: st) left' d
                  else (Err ESeekNotSupported, (n, O) :: st, d)
              | Err e => (Err e, (n, O) :: st, d)
              | Panic => (Panic, (n, O) :: st, d)
              | Fuel => (Fuel, (n, O) :: st, d)
              end
          | [] =>
              match ReadUnixFSNodeData n with
              | Ok b => seek_walk f w root ((n, O) :: st) left (Some (b, left))
              | Err e => (Err e, (n, O) :: st, d)
              | Panic => (Panic, (n, O) :: st, d)
              | Fuel => (Fuel, (n, O) :: st, d)
              end
          end
      end
  end.

(** Case io.SeekStart. /repo/io/dagreader.go:357-469; resetPosition 491-498. *)
Definition seek_start (w : world) (offset : Z) (r : reader) : Z * res unit * reader :=
  if offset <? 0 then (r_off r, Err EInvalidOffset, r)
  else if offset =? r_off r then (offset, Ok tt, r)
  else if offset =? 0 then (0, Ok tt, mkReader (r_root r) (r_size r) 0 [] None)
  else
    let '(x, st, d) := seek_walk (walk_fuel (r_root r) []) w (r_root r) [] offset None in
    match x with
    | Ok _ => (offset, Ok tt, mkReader (r_root r) (r_size r) offset st d)
    | e => (0, e, mkReader (r_root r) (r_size r) 0 st d)
    end.

(** /repo/io/dagreader.go:355-486; [whence] 0, 1, 2: start, current, end. *)
Definition Seek (w : world) (offset whence : Z) (r : reader) : Z * res unit * reader :=
  if whence =? 0 then seek_start w offset r
  else if whence =? 1 then
    if offset =? 0 then (r_off r, Ok tt, r)
    else seek_start w (i64 (r_off r + offset)) r
  else if whence =? 2 then seek_start w (i64 (i64 (Size r) + offset)) r
  else (0, Err EInvalidWhence, r).
