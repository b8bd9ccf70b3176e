(** Specification of a file opened for reading whose blocks may be missing. *)
From Verif Require Import Base Pb FSNode Dag SpecFile SpecReader Reader.

(** [block_at n lo hi m]: the block [m] below [n] holds the bytes from [lo] up to [hi] of
    the DAG [n]. *)
Inductive block_at : node -> Z -> Z -> node -> Prop :=
| ba_child n pre l post bs d : node_links n = pre ++ l :: post -> Forall2 tree_bytes (map lto pre) bs -> tree_bytes (lto l) d ->
    block_at n (zlen (concat bs)) (zlen (concat bs) + zlen d) (lto l)
| ba_below n pre l post bs lo hi m : node_links n = pre ++ l :: post -> Forall2 tree_bytes (map lto pre) bs -> block_at (lto l) lo hi m ->
    block_at n (zlen (concat bs) + lo) (zlen (concat bs) + hi) m.
(** A block with these bytes cannot be fetched. *)
Definition lacks (w : world) (root : node) (P : Z -> Z -> Prop) : Prop :=
  exists lo hi m, block_at root lo hi m /\ P lo hi /\ dserv_get w m <> Ok m.

(** Calls; a copy is given its destination. *)
Inductive lop := LRead (k : nat) | LSeek (o wh : Z) | LCopy (wr : writer).
(** A destination that does not always take everything. *)
Definition unreliable (wr : writer) : Prop := exists rcv x, snd (wr rcv x) = true \/ (fst (wr rcv x) < length x)%nat.
(** Seek arguments are int64. *)
Definition lop_ok (op : lop) : Prop := match op with LSeek o _ => -9223372036854775808 <= o < 9223372036854775808 | _ => True end.
Definition unmoved (op : lop) : Prop := match op with LSeek _ _ => False | _ => True end.

(** An open file has two positions: [q], where it reads, and [o], which it reports and
    from which it computes what a seek means. They are equal until a seek fails to fetch a
    block, which leaves [q] at the beginning of that block and [o] at 0, or a destination
    fails. A read needs the blocks that begin within the bytes it reads (one byte at
    least), a copy those that begin at the position or behind it, a seek those that
    hold the byte at the new position; a position behind the end counts as the end.
    A seek to the reported position does nothing. *)
Section Skew.
  Variables (root : node) (content : bytes).
  Inductive skew_step (w : world) : Z * Z -> lop -> robs -> Z * Z -> Prop :=
  | sk_read q o k ob q' : file_step content q (OpRead k) ob q' -> skew_step w (q, o) (LRead k) ob (q', o + (q' - q))
  | sk_read_lacks q o k m :
      let p := Z.min q (zlen content) in let out := read_at content q m in
      ((m < k)%nat \/ m = k /\ k = 0%nat) -> zlen out = Z.of_nat m ->
      lacks w root (fun lo hi => lo = p + zlen out) ->
      skew_step w (q, o) (LRead k) (out, zlen out, Some EFetch) (q + zlen out, o + zlen out)
  | sk_copy q o wr ob q' : file_step content q OpCopy ob q' -> skew_step w (q, o) (LCopy wr) ob (q', o + (q' - q))
  | sk_copy_lacks q o wr m :
      let p := Z.min q (zlen content) in let out := read_at content q m in
      zlen out = Z.of_nat m -> lacks w root (fun lo hi => lo = p + zlen out) ->
      skew_step w (q, o) (LCopy wr) (out, zlen out, Some EFetch) (q + zlen out, o + zlen out)
  | sk_copy_fails q o wr m o' :
      let out := read_at content q m in
      unreliable wr -> o <= o' <= o + zlen out ->
      skew_step w (q, o) (LCopy wr) (out, zlen out, Some EWrite) (q + zlen out, o')
  | sk_seek_here q o d wh : seek_target content o d wh = Some o -> skew_step w (q, o) (LSeek d wh) ([], o, None) (q, o)
  | sk_seek q o d wh t : seek_target content o d wh = Some t -> t <> o -> 0 <= t < 9223372036854775808 ->
      (0 < t -> ~ lacks w root (fun lo hi => lo <= t < hi)) -> skew_step w (q, o) (LSeek d wh) ([], t, None) (t, t)
  | sk_seek_bad q o d wh t : seek_target content o d wh = Some t -> ~ 0 <= t < 9223372036854775808 ->
      skew_step w (q, o) (LSeek d wh) ([], o, Some EInvalidOffset) (q, o)
  | sk_seek_whence q o d wh : seek_target content o d wh = None -> skew_step w (q, o) (LSeek d wh) ([], 0, Some EInvalidWhence) (q, o)
  | sk_seek_lacks q o d wh t q' : seek_target content o d wh = Some t -> t <> o -> 0 < t < 9223372036854775808 -> lacks w root (fun lo hi => lo = q' /\ lo <= t < hi) ->
      skew_step w (q, o) (LSeek d wh) ([], 0, Some EFetch) (q', 0).
  Inductive skew_run : Z * Z -> list (world * lop) -> list robs -> Prop :=
  | sr_nil s : skew_run s [] []
  | sr_cons s w op ob s' l t : skew_step w s op ob s' -> skew_run s' l t -> skew_run s ((w, op) :: l) (ob :: t).
End Skew.
