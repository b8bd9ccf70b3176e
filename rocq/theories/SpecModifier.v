(** Specification of changing a file in place, independent of the modifier. *)
From Verif Require Import Base Pb FSNode Dag SpecFile SpecAppend SpecReader.

(** ** Contents *)

(** [c] followed by zeros up to length [n]. *)
Definition pad (c : bytes) (n : Z) : bytes := c ++ repeat x00 (Z.to_nat (n - zlen c)).
(** [c] with [b] written at [off]; a gap is filled with zeros. *)
Definition put (c : bytes) (off : Z) (b : bytes) : bytes :=
  ztake off (pad c off) ++ b ++ zdrop (off + zlen b) c.
(** [c] cut or extended with zeros to length [n]. *)
Definition resize (c : bytes) (n : Z) : bytes := ztake n (pad c n).

(** ** Shapes *)

(** Same tree, names, recorded sizes and formats; only the bytes in the leaves may
    differ, and a leaf keeps its length. (The encoded length of a leaf is kept if it
    was encoded in the canonical way.) *)
Inductive same_shape : node -> node -> Prop :=
| ss_raw p d d' : zlen d = zlen d' -> same_shape (NRaw p d) (NRaw p d')
| ss_leaf p b b' f data :
    FSNodeFromBytes b = Ok f -> FSNodeFromBytes b' = Ok (set_data data f) -> zlen (obytes data) = zlen (getData f) ->
    (GetBytes f = Ok b -> zlen b' = zlen b /\ GetBytes (set_data data f) = Ok b') -> (data = None <-> d_data f = None) ->
    same_shape (NProto p b []) (NProto p b' [])
| ss_node p b ls ls' :
    map lname ls = map lname ls' -> map lsize ls = map lsize ls' ->
    Forall2 same_shape (map lto ls) (map lto ls') -> same_shape (NProto p b ls) (NProto p b ls').

(** Every dag-pb leaf is encoded as this library would encode it. *)
Definition canonical_leaves (n : node) : Prop :=
  forall p b, reach n (NProto p b []) -> exists f, FSNodeFromBytes b = Ok f /\ GetBytes f = Ok b.

(** A file that can be extended with [k] links per node: no data in the root, at
    most [k] links, or (loose) trickle shape beyond the first [k]; what the first [k]
    links of a node lead to does not matter. *)
Definition growable (k : Z) (n : node) : Prop :=
  loose k 4 (fun _ => True) (trickle_inner (fun _ => True)) (-1) n.

(** Everything below [n] is in the store and can be fetched, and blocks can be added. *)
Definition good_store (w : world) (n : node) : Prop := can_add w /\ serves w /\ below_available w n.
(** Nothing is lost from the store. *)
Definition keeps (w w' : world) : Prop := forall m, dserv_get w m = Ok m -> dserv_get w' m = Ok m.
(** Every block of [n] can be fetched. *)
Definition available (w : world) (n : node) : Prop := forall m, reach n m -> dserv_get w m = Ok m.

(** ** A file open for reading and writing *)

Inductive mop :=
| MWrite (b : bytes)
| MWriteAt (b : bytes) (off : Z)
| MSeek (off whence : Z)
| MTruncate (n : Z)
| MRead (k : nat)
| MSize
| MSync
| MGetNode.

(** What is observed: a number, nothing, data with an error, or a node. *)
Inductive mobs :=
| BInt (z : Z)
| BDone
| BData (b : bytes) (e : option err)
| BNode (n : node).

(** What was read since the last write: nothing; something; something, and then the
    size of the file changed, but the position was changed after that; or not even
    that. *)
Inductive rmode := NoReader | Current | Resized | Stale.
Definition outdated (r : rmode) : rmode := match r with NoReader => NoReader | _ => Stale end.
Definition repositioned (same : bool) (r : rmode) : rmode := match r with Stale => if same then Stale else Resized | _ => r end.

(** [moved]: something other than Write and Seek moved the position since the last
    Seek. [clean]: the last call that is not Size was not a write. *)
Record fstate := mkF { f_content : bytes; f_pos : Z; f_moved : bool; f_reader : rmode; f_clean : bool }.

Definition m_target (s : fstate) (off whence : Z) : Z :=
  if whence =? 0 then off else if whence =? 1 then f_pos s + off else zlen (f_content s) + off.

(** The file after a call. Seeking past the end extends the file with zeros; so does
    writing past the end, even nothing. WriteAt moves the position by the number of
    bytes written. *)
Definition m_next (s : fstate) (op : mop) : fstate :=
  let '(mkF c pos moved reader clean) := s in
  match op with
  | MWrite b => mkF (put c pos b) (pos + zlen b) false NoReader false
  | MWriteAt b off => mkF (put c off b) (pos + zlen b) (negb (off =? pos)) NoReader false
  | MSeek off wh =>
      let t := m_target s off wh in
      mkF (pad c t) t false (repositioned (t =? pos) (if zlen c <? t then outdated reader else reader)) true
  | MTruncate n => mkF (resize c n) pos moved (if n =? zlen c then reader else outdated reader) true
  | MRead k => mkF c (pos + zlen (read_at c pos k)) (moved || (0 <? zlen (read_at c pos k)))
      (match reader with NoReader => Current | _ => reader end) true
  | MSize => s
  | MSync => mkF c pos moved reader true
  | MGetNode => mkF c pos moved reader true
  end.

(** The answer to a call; [w] is the store after it. *)
Definition m_answer (w : world) (s : fstate) (op : mop) (o : mobs) : Prop :=
  match op with
  | MWrite b => o = BInt (zlen b)
  | MWriteAt b _ => o = BInt (zlen b)
  | MSeek off wh => o = BInt (m_target s off wh)
  | MTruncate _ => o = BDone
  | MRead k => exists b e pos', o = BData b e /\ file_step (f_content s) (f_pos s) (OpRead k) (b, zlen b, e) pos'
  | MSize => o = BInt (zlen (f_content s))
  | MSync => o = BDone
  | MGetNode => exists n, o = BNode n /\ file_content n (f_content s) /\ available w n
  end.

(** Calls for which the modifier is claimed to behave like the file. *)
Definition m_allowed (s : fstate) (op : mop) : Prop :=
  match op with
  | MWrite b => f_moved s = false /\ f_pos s + zlen b < 9223372036854775808
  | MWriteAt b off => f_clean s = true /\ (off = f_pos s -> f_moved s = false) /\
      0 <= off /\ off + zlen b < 9223372036854775808 /\ f_pos s + zlen b < 9223372036854775808
  | MSeek off wh => (wh = 0 \/ wh = 1 \/ wh = 2 /\ off = 0 /\ f_reader s <> Resized /\ f_reader s <> Stale) /\
      -9223372036854775808 <= off < 9223372036854775808 /\ 0 <= m_target s off wh < 9223372036854775808
  | MTruncate n => 0 <= n < 9223372036854775808
  | MRead _ => f_reader s <> Stale
  | _ => True
  end.

Fixpoint all_allowed (s : fstate) (ops : list mop) : Prop :=
  match ops with
  | [] => True
  | op :: r => m_allowed s op /\ all_allowed (m_next s op) r
  end.

(** A history: the calls, what was observed and the store after each. *)
Fixpoint like_file (s : fstate) (h : list (mop * mobs * world)) : Prop :=
  match h with
  | [] => True
  | (op, o, w) :: r => m_answer w s op o /\ like_file (m_next s op) r
  end.

(** The file after a list of calls. *)
Definition m_after (s : fstate) (ops : list mop) : fstate := fold_left m_next ops s.
