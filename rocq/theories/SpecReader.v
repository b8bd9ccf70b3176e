(** Specification of reading a file: bytes of a DAG, and a file cursor. *)
From Verif Require Import Base Pb FSNode Dag SpecFile.

(** The bytes of a block without links. *)
Inductive leaf_bytes : node -> bytes -> Prop :=
| lb_raw p d : leaf_bytes (NRaw p d) d
| lb_proto p b fs : FSNodeFromBytes b = Ok fs -> getType fs = TFile \/ getType fs = TRaw ->
    leaf_bytes (NProto p b []) (getData fs).

(** The bytes of a DAG: those of its leaves from left to right; data in inner
    nodes and recorded sizes do not matter. *)
Inductive tree_bytes : node -> bytes -> Prop :=
| tb_leaf n d : leaf_bytes n d -> tree_bytes n d
| tb_node n bs : node_links n <> [] -> Forall2 tree_bytes (map lto (node_links n)) bs -> tree_bytes n (concat bs).

(** ** A file opened for reading: contents and position *)

(** Reading at most [k] bytes at position [pos] (nothing past the end). *)
Definition read_at (content : bytes) (pos : Z) (k : nat) : bytes :=
  firstn k (skipn (Z.to_nat pos) content).

Inductive rop :=
| OpRead (k : nat)
| OpSeek (offset whence : Z)
| OpCopy.  (* WriteTo with a destination that accepts everything *)

(** Observable result: data delivered, number returned, error. *)
Definition robs := (bytes * Z * option err)%type.

(** Target of a seek. *)
Definition seek_target (content : bytes) (pos offset whence : Z) : option Z :=
  if whence =? 0 then Some offset
  else if whence =? 1 then Some (pos + offset)
  else if whence =? 2 then Some (zlen content + offset)
  else None.

(** [file_step content pos op obs pos']: what a file may answer. A read that is cut
    short by the end of the file reports io.EOF; a read of no bytes may. A seek
    outside 0 .. 2^63-1 fails without moving. *)
Inductive file_step (content : bytes) (pos : Z) : rop -> robs -> Z -> Prop :=
| fs_read k eof :
    (eof = None \/ eof = Some EEOF) ->
    (zlen (read_at content pos k) < Z.of_nat k -> eof = Some EEOF) ->
    (eof = Some EEOF -> k = O \/ zlen (read_at content pos k) < Z.of_nat k) ->
    file_step content pos (OpRead k)
      (read_at content pos k, zlen (read_at content pos k), eof) (pos + zlen (read_at content pos k))
| fs_seek o wh t : seek_target content pos o wh = Some t -> 0 <= t < 9223372036854775808 ->
    file_step content pos (OpSeek o wh) ([], t, None) t
| fs_seek_bad o wh t : seek_target content pos o wh = Some t -> ~ 0 <= t < 9223372036854775808 ->
    file_step content pos (OpSeek o wh) ([], pos, Some EInvalidOffset) pos
| fs_seek_whence o wh : seek_target content pos o wh = None ->
    file_step content pos (OpSeek o wh) ([], 0, Some EInvalidWhence) pos
| fs_copy : file_step content pos OpCopy
    (skipn (Z.to_nat pos) content, zlen (skipn (Z.to_nat pos) content), None)
    (pos + zlen (skipn (Z.to_nat pos) content)).

Inductive file_run (content : bytes) : Z -> list (rop * robs) -> Z -> Prop :=
| fr_nil pos : file_run content pos [] pos
| fr_cons pos op obs pos1 l pos2 : file_step content pos op obs pos1 -> file_run content pos1 l pos2 ->
    file_run content pos ((op, obs) :: l) pos2.

(** Seek arguments are int64. *)
Definition op_ok (op : rop) : Prop :=
  match op with
  | OpSeek o _ => -9223372036854775808 <= o < 9223372036854775808
  | _ => True
  end.

(** What a file may answer when blocks are missing: a read or copy delivers a part
    of the data and reports a fetch error; the position is where it stopped. *)
Inductive faulty_step (content : bytes) (pos : Z) : rop -> robs -> Z -> Prop :=
| ft_ok op obs pos' : file_step content pos op obs pos' -> faulty_step content pos op obs pos'
| ft_read k m : (m <= k)%nat ->
    faulty_step content pos (OpRead k)
      (read_at content pos m, zlen (read_at content pos m), Some EFetch) (pos + zlen (read_at content pos m))
| ft_copy m :
    faulty_step content pos OpCopy
      (read_at content pos m, zlen (read_at content pos m), Some EFetch) (pos + zlen (read_at content pos m)).

Inductive faulty_run (content : bytes) : Z -> list (rop * robs) -> Z -> Prop :=
| ftr_nil pos : faulty_run content pos [] pos
| ftr_cons pos op obs pos1 l pos2 : faulty_step content pos op obs pos1 -> faulty_run content pos1 l pos2 ->
    faulty_run content pos ((op, obs) :: l) pos2.

(** Calls that do not seek. *)
Definition no_seek (op : rop) : Prop := match op with OpSeek _ _ => False | _ => True end.

(** ** Opening a node for reading *)

(** [opens w n x]: the outcome of opening [n]: the file node actually read and its
    size, or an error. Metadata nodes stand for the node they link to first. *)
Inductive opens (w : world) : node -> res (node * Z) -> Prop :=
| op_raw p d : opens w (NRaw p d) (Ok (NRaw p d, mod64 (zlen d)))
| op_file p b ls fs : FSNodeFromBytes b = Ok fs -> getType fs = TFile \/ getType fs = TRaw ->
    opens w (NProto p b ls) (Ok (NProto p b ls, match d_filesize fs with Some s => s | None => 0 end))
| op_dir p b ls fs : FSNodeFromBytes b = Ok fs -> getType fs = TDirectory \/ getType fs = THAMTShard ->
    opens w (NProto p b ls) (Err EIsDir)
| op_symlink p b ls fs : FSNodeFromBytes b = Ok fs -> getType fs = TSymlink ->
    opens w (NProto p b ls) (Err ECantReadSymlinks)
| op_other p b ls fs : FSNodeFromBytes b = Ok fs ->
    ~ In (getType fs) [TFile; TRaw; TDirectory; THAMTShard; TSymlink; TMetadata] ->
    opens w (NProto p b ls) (Err EUnrecData)
| op_undecodable p b ls e : FSNodeFromBytes b = Err e -> opens w (NProto p b ls) (Err e)
| op_meta_empty p b fs : FSNodeFromBytes b = Ok fs -> getType fs = TMetadata ->
    opens w (NProto p b []) (Err EMetaNoLinks)
| op_meta_missing p b fs l ls : FSNodeFromBytes b = Ok fs -> getType fs = TMetadata ->
    dserv_get w (lto l) <> Ok (lto l) -> opens w (NProto p b (l :: ls)) (Err EFetch)
| op_meta_raw p b fs l ls q d : FSNodeFromBytes b = Ok fs -> getType fs = TMetadata ->
    dserv_get w (lto l) = Ok (lto l) -> lto l = NRaw q d -> opens w (NProto p b (l :: ls)) (Err ENotProtobuf)
| op_meta p b fs l ls q c ms x : FSNodeFromBytes b = Ok fs -> getType fs = TMetadata ->
    dserv_get w (lto l) = Ok (lto l) -> lto l = NProto q c ms -> opens w (lto l) x ->
    opens w (NProto p b (l :: ls)) x.
