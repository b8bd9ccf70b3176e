(** What the modifier does to a file in every situation, also where it departs from an
    ordinary open file (SpecModifier.v). *)
From Verif Require Import Base Dag SpecFile SpecAppend SpecReader SpecModifier.

(** The reader that is kept between calls of Read: its own position, the size of the
    file when it was opened, and whether the file was resized since it took up its
    position. *)
Record xreader := mkR { xr_pos : Z; xr_size : Z; xr_stale : bool }.

(** The file, the bytes written but not yet put into it, the place where they go, the
    position and the reader. *)
Record xstate := mkX { x_file : bytes; x_buf : option bytes; x_start : Z; x_pos : Z; x_read : option xreader }.

Definition x_new (c : bytes) : xstate := mkX c None 0 0 None.

Definition x_pending (s : xstate) : bytes := match x_buf s with Some b => b | None => [] end.
(** Where the next Write goes. *)
Definition x_end (s : xstate) : Z := x_start s + zlen (x_pending s).
(** The file with the pending bytes. *)
Definition x_content (s : xstate) : bytes := match x_buf s with Some b => put (x_file s) (x_start s) b | None => x_file s end.

(** The pending bytes are put into the file; this ends the reader. *)
Definition x_flush (s : xstate) : xstate :=
  match x_buf s with
  | None => s
  | Some b => mkX (put (x_file s) (x_start s) b) None (x_start s + zlen b) (x_pos s) None
  end.

Definition x_write (limit : Z) (b : bytes) (s : xstate) : xstate :=
  let s' := mkX (x_file s) (Some (x_pending s ++ b)) (x_start s) (x_pos s + zlen b) None in
  if limit <? zlen (x_pending s ++ b) then x_flush s' else s'.

Definition stale (r : xreader) : xreader := mkR (xr_pos r) (xr_size r) true.

(** The file gets content [c], which has another length. *)
Definition x_resize (c : bytes) (s : xstate) : xstate :=
  mkX c (x_buf s) (x_start s) (x_pos s) (option_map stale (x_read s)).
(** The file is extended with zeros up to [n]. *)
Definition x_extend (n : Z) (s : xstate) : xstate :=
  if zlen (x_file s) <? n then x_resize (pad (x_file s) n) s else s.

(** Before a WriteAt: pending bytes are dropped if it goes to the same place and is not
    shorter; nothing is done if it goes to the position; otherwise the file is extended
    by as much as the place is beyond the end, then the pending bytes are put into it. *)
Definition x_place (b : bytes) (off : Z) (s : xstate) : xstate :=
  let elsewhere :=
    if off =? x_pos s then s
    else
      let s1 := x_flush (x_extend (zlen (x_file s) + (off - zlen (x_content s))) s) in
      mkX (x_file s1) None off (x_pos s1) (x_read s1) in
  match x_buf s with
  | Some x =>
      if off =? x_start s then
        if zlen x <=? zlen b then mkX (x_file s) (Some []) (x_start s) (x_pos s) (x_read s) else s
      else elsewhere
  | None => elsewhere
  end.

(** Where Seek puts the position, and where it puts the reader. *)
Definition x_target (s : xstate) (off whence : Z) : Z :=
  if whence =? 0 then off else if whence =? 1 then x_pos s + off else zlen (x_content s) - off.
Definition xr_target (r : xreader) (off whence : Z) : Z :=
  if whence =? 0 then off else if whence =? 1 then xr_pos r + off else xr_size r + off.

Definition whence_ok (whence : Z) : bool := (whence =? 0) || (whence =? 1) || (whence =? 2).
Definition in_range (z : Z) : bool := (0 <=? z) && (z <? 9223372036854775808).

Definition xr_seek (off whence : Z) (r : xreader) : xreader :=
  let t := xr_target r off whence in
  if in_range t then mkR t (xr_size r) (xr_stale r && (t =? xr_pos r)) else r.
Definition x_seek (off whence : Z) (s : xstate) : xstate :=
  let t := x_target s off whence in
  let s1 := x_flush s in
  if whence_ok whence then
    let s2 := x_extend t s1 in
    mkX (x_file s2) None t t (option_map (xr_seek off whence) (x_read s2))
  else s1.

(** The reader used by a Read. *)
Definition x_reader (s : xstate) : xreader :=
  match x_read s with Some r => r | None => mkR (x_pos s) (zlen (x_file s)) false end.
Definition x_next (limit : Z) (s : xstate) (op : mop) : xstate :=
  match op with
  | MWrite b => x_write limit b s
  | MWriteAt b off => x_write limit b (x_place b off s)
  | MSeek off wh => x_seek off wh s
  | MTruncate n =>
      let s1 := x_flush s in
      if n =? zlen (x_file s1) then s1 else x_resize (resize (x_file s1) n) s1
  | MRead k =>
      let s1 := x_flush s in
      let r := x_reader s1 in
      let d := zlen (read_at (x_file s1) (xr_pos r) k) in
      mkX (x_file s1) None (x_start s1) (x_pos s1 + d) (Some (mkR (xr_pos r + d) (xr_size r) (xr_stale r)))
  | MSize => s
  | MSync => x_flush s
  | MGetNode => x_flush s
  end.

(** The answer of a Seek. *)
Definition x_seek_answer (s : xstate) (off whence : Z) : res mobs :=
  if whence_ok whence then
    match x_read (x_flush s) with
    | Some r => if in_range (xr_target r off whence) then Ok (BInt (x_target s off whence)) else Err EInvalidOffset
    | None => Ok (BInt (x_target s off whence))
    end
  else Err EInvalidWhence.

(** The answer to a call; [w] is the store after it. *)
Definition x_answer (w : world) (s : xstate) (op : mop) (o : res mobs) : Prop :=
  match op with
  | MWrite b => o = Ok (BInt (zlen b))
  | MWriteAt b _ => o = Ok (BInt (zlen b))
  | MSeek off wh => o = x_seek_answer s off wh
  | MTruncate _ => o = Ok BDone
  | MRead k => exists b e pos', o = Ok (BData b e) /\
      file_step (x_content s) (xr_pos (x_reader (x_flush s))) (OpRead k) (b, zlen b, e) pos'
  | MSize => o = Ok (BInt (zlen (x_content s)))
  | MSync => o = Ok BDone
  | MGetNode => exists n, o = Ok (BNode n) /\ file_content n (x_content s) /\ available w n
  end.

(** Numbers stay within int64, sizes and positions are not negative, and a Read does not
    use a reader whose file was resized under it (C28). *)
Definition x_ok (s : xstate) (op : mop) : Prop :=
  match op with
  | MWrite b => x_end s + zlen b < 9223372036854775808 /\ x_pos s + zlen b < 9223372036854775808
  | MWriteAt b off => 0 <= off /\ off + zlen b < 9223372036854775808 /\ x_end s + zlen b < 9223372036854775808 /\
      x_pos s + zlen b < 9223372036854775808
  | MSeek off wh => -9223372036854775808 <= off < 9223372036854775808 /\
      (whence_ok wh = true -> in_range (x_target s off wh) = true)
  | MTruncate n => 0 <= n < 9223372036854775808
  | MRead k => xr_stale (x_reader (x_flush s)) = false /\
      x_pos s + zlen (read_at (x_content s) (xr_pos (x_reader (x_flush s))) k) < 9223372036854775808
  | _ => True
  end.

Fixpoint all_ok (limit : Z) (s : xstate) (ops : list mop) : Prop :=
  match ops with
  | [] => True
  | op :: r => x_ok s op /\ all_ok limit (x_next limit s op) r
  end.

(** The file after a list of calls. *)
Definition x_after (limit : Z) (s : xstate) (ops : list mop) : xstate := fold_left (x_next limit) ops s.

(** A history: the calls, what was observed and the store after each. *)
Fixpoint exactly (limit : Z) (s : xstate) (h : list (mop * res mobs * world)) : Prop :=
  match h with
  | [] => True
  | (op, o, w) :: r => x_answer w s op o /\ exactly limit (x_next limit s op) r
  end.

(** ** Calls of Sync in between *)

Definition is_sync (op : mop) : bool := match op with MSync => true | _ => false end.
Definition no_writeat (op : mop) : Prop := match op with MWriteAt _ _ => False | _ => True end.
(** The calls other than Sync. *)
Definition nosync (ops : list mop) : list mop := filter (fun op => negb (is_sync op)) ops.
(** What was observed by them. *)
Definition observed (h : list (mop * res mobs * world)) : list (mop * res mobs) :=
  filter (fun x => negb (is_sync (fst x))) (map fst h).
(** The same as far as the caller can tell: a node with the same content, the same
    data; otherwise exactly the same. *)
Definition same_answer (a b : mop * res mobs) : Prop :=
  fst a = fst b /\
  match fst a with
  | MRead k => exists d e e', snd a = Ok (BData d e) /\ snd b = Ok (BData d e') /\ ((0 < k)%nat -> e = e')
  | MGetNode => exists n n' c, snd a = Ok (BNode n) /\ snd b = Ok (BNode n') /\ file_content n c /\ file_content n' c
  | _ => snd a = snd b
  end.
