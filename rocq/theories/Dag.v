(** IPLD nodes, links and the DAG service.

    The types live in github.com/ipfs/go-merkledag v0.5.1 (ProtoNode, RawNode),
    go-ipld-format v0.2.0 (Link, MakeLink, DAGService) and go-cid (Prefix), which
    are not in /repo; the comments name the function modelled. A CID is represented
    by the node it identifies. *)
From Verif Require Import Base Pb FSNode.

(** ** CID prefixes (go-cid [Prefix], [Builder]) *)

(** go-cid [Prefix]. A node always carries the prefix of its CID, i.e. with the
    digest length resolved (-1 means "default length of the hash function"). *)
Record prefix := mkPrefix { p_version : Z; p_codec : Z; p_mhtype : Z; p_mhlen : Z }.

(** go-cid codec constants [cid.DagProtobuf], [cid.Raw]. *)
Definition DagProtobuf : Z := 112.
Definition RawCodec : Z := 85.

(** go-multihash [DefaultLengths]; only the common functions, others get 32
    (simplification; the identity function is not modelled). *)
Definition default_mhlen (t : Z) : Z := if t =? 19 then 64 else 32.
(** Length of the digest in the CID built from a prefix (go-cid [Prefix.Sum]). *)
Definition resolve (p : prefix) : prefix :=
  mkPrefix (p_version p) (p_codec p) (p_mhtype p)
    (if p_mhlen p =? -1 then default_mhlen (p_mhtype p) else p_mhlen p).
(** go-cid [Prefix.WithCodec]. *)
Definition with_codec (c : Z) (p : prefix) : prefix :=
  if p_codec p =? c then p
  else mkPrefix (if c =? DagProtobuf then p_version p else 1) c (p_mhtype p) (p_mhlen p).
(** go-merkledag [v0CidPrefix]. *)
Definition v0prefix : prefix := mkPrefix 0 DagProtobuf 18 (-1).
(** go-merkledag [NewRawNode]: CIDv1, raw codec, sha2-256. *)
Definition rawprefix : prefix := mkPrefix 1 RawCodec 18 32.
(** go-merkledag [ProtoNode.SetCidBuilder]; [None] is a nil builder. *)
Definition proto_prefix (b : option prefix) : prefix :=
  resolve (match b with None => v0prefix | Some p => with_codec DagProtobuf p end).
(** go-merkledag [NewRawNode] / [NewRawNodeWPrefix]
    (/repo/importer/helpers/dagbuilder.go:156-163). *)
Definition raw_prefix (b : option prefix) : prefix :=
  match b with None => rawprefix | Some p => resolve (with_codec RawCodec p) end.

(** ** Links and nodes *)

(** go-ipld-format [Link]: name, cumulative size, target. *)
Record plink (T : Type) := mkLink { lname : bytes; lsize : Z; lto : T }.
Arguments mkLink {T} _ _ _.
Arguments lname {T} _.
Arguments lsize {T} _.
Arguments lto {T} _.

(** go-merkledag [RawNode] and [ProtoNode] (prefix, data, links). *)
Inductive node : Type :=
| NRaw (p : prefix) (d : bytes)
| NProto (p : prefix) (d : bytes) (ls : list (plink node)).
Notation link := (plink node).

Definition node_links (n : node) : list link :=
  match n with NRaw _ _ => [] | NProto _ _ ls => ls end.
Definition node_prefix (n : node) : prefix :=
  match n with NRaw p _ => p | NProto p _ _ => p end.
Definition node_bytes (n : node) : bytes :=
  match n with NRaw _ d => d | NProto _ d _ => d end.

(** ** Encoded sizes *)

(** Number of bytes of a varint. gogo [sizeVarint] / dag-pb encoder. *)
Definition vlen (n : Z) : Z := zlen (varint n).
(** Length of the binary CID (go-cid [Cid.ByteLen]): version 0 is a bare
    multihash, version 1 has version, codec and multihash. The digest of a CID that
    exists has no negative length. *)
Definition cid_len (p : prefix) : Z :=
  if p_version p =? 0 then vlen (p_mhtype p) + vlen (p_mhlen p) + Z.max 0 (p_mhlen p)
  else 1 + vlen (p_codec p) + vlen (p_mhtype p) + vlen (p_mhlen p) + Z.max 0 (p_mhlen p).
(** Length of one PBLink field (dag-pb: Hash=1, Name=2, Tsize=3, all present). *)
Definition link_len (l : link) : Z :=
  let c := cid_len (node_prefix (lto l)) in
  let inner := (1 + vlen c + c) + (1 + vlen (zlen (lname l)) + zlen (lname l)) + (1 + vlen (lsize l)) in
  1 + vlen inner + inner.
(** Length of the encoded block (dag-pb: links, then Data=1 if not empty;
    raw blocks are their bytes). *)
Definition sumZ (l : list Z) : Z := fold_right Z.add 0 l.
Definition block_len (n : node) : Z :=
  match n with
  | NRaw _ d => zlen d
  | NProto _ d ls =>
      sumZ (map link_len ls) + (if zlen d =? 0 then 0 else 1 + vlen (zlen d) + zlen d)
  end.
(** go-merkledag [ProtoNode.Size], [RawNode.Size]: block length plus the recorded
    sizes of the links (uint64 arithmetic). *)
Definition node_size (n : node) : Z := u64 (block_len n + sumZ (map lsize (node_links n))).

(** ** Link order *)

(** Byte-wise string comparison (Go [<] on strings), used by go-merkledag
    [LinkSlice.Less]. *)
Fixpoint name_ltb (a b : bytes) : bool :=
  match a, b with
  | _, [] => false
  | [], _ :: _ => true
  | x :: a', y :: b' =>
      if b2z x <? b2z y then true else if b2z y <? b2z x then false else name_ltb a' b'
  end.
(** [sort.Stable(LinkSlice(n.links))] in go-merkledag [ProtoNode.EncodeProtobuf]. *)
Fixpoint linsert {T} (l : plink T) (ls : list (plink T)) : list (plink T) :=
  match ls with
  | [] => [l]
  | m :: r => if name_ltb (lname m) (lname l) then m :: linsert l r else l :: m :: r
  end.
Fixpoint lsort {T} (ls : list (plink T)) : list (plink T) :=
  match ls with [] => [] | l :: r => linsert l (lsort r) end.
(** Encoding a node (to add it, link to it or take its CID) sorts its links in
    place. go-merkledag [ProtoNode.EncodeProtobuf] *)
Definition seal (n : node) : node :=
  match n with NRaw _ _ => n | NProto p d ls => NProto p d (lsort ls) end.

(** go-ipld-format [MakeLink] with a name: cumulative size and CID of the target. *)
Definition make_link (name : bytes) (n : node) : link := mkLink name (node_size n) (seal n).

(** ** Equality of nodes (equality of CIDs) *)

Fixpoint bytes_eqb (a b : bytes) : bool :=
  match a, b with
  | [], [] => true
  | x :: a', y :: b' => Byte.eqb x y && bytes_eqb a' b'
  | _, _ => false
  end.
Definition prefix_eqb (p q : prefix) : bool :=
  (p_version p =? p_version q) && (p_codec p =? p_codec q)
  && (p_mhtype p =? p_mhtype q) && (p_mhlen p =? p_mhlen q).
Fixpoint node_eqb (a b : node) {struct a} : bool :=
  match a, b with
  | NRaw p d, NRaw q e => prefix_eqb p q && bytes_eqb d e
  | NProto p d ls, NProto q e ms =>
      prefix_eqb p q && bytes_eqb d e &&
      (fix go (ls ms : list (plink node)) {struct ls} : bool :=
         match ls, ms with
         | [], [] => true
         | l :: ls', m :: ms' =>
             bytes_eqb (lname l) (lname m) && (lsize l =? lsize m)
             && node_eqb (lto l) (lto m) && go ls' ms'
         | _, _ => false
         end) ls ms
  | _, _ => false
  end.

(** ** DAG service (go-ipld-format [DAGService]) *)

(** [w_has]: blocks present at the start. [w_added]: blocks added since, oldest
    first, with the filestore offset if the block was added as a FilestoreNode
    (go-ipfs-posinfo). [w_addok n] decides whether the n-th Add call succeeds,
    [w_getok] whether a block that is present can be fetched. *)
Record world := mkWorld {
  w_has : node -> bool;
  w_added : list (node * option Z);
  w_calls : nat;
  w_addok : nat -> bool;
  w_getok : node -> bool
}.

(** go-ipld-format [NodeAdder.Add]. *)
Definition dserv_add (n : node) (o : option Z) (w : world) : res unit * world :=
  if w_addok w (w_calls w)
  then (Ok tt, mkWorld (w_has w) (w_added w ++ [(seal n, o)]) (S (w_calls w)) (w_addok w) (w_getok w))
  else (Err EAdd, mkWorld (w_has w) (w_added w) (S (w_calls w)) (w_addok w) (w_getok w)).
(** Is the block in the store? *)
Definition stored (w : world) (n : node) : bool :=
  w_has w n || existsb (fun e => node_eqb n (fst e)) (w_added w).
(** go-ipld-format [NodeGetter.Get] by CID. *)
Definition dserv_get (w : world) (n : node) : res node :=
  if stored w n && w_getok w n then Ok n else Err EFetch.

(** ** unixfs.go functions on nodes *)

(** /repo/unixfs.go:400-402 and 407-409; [NodeWithData] has the v0 prefix. *)
Definition EmptyDirNode : res node := rmap (fun b => NProto (resolve v0prefix) b []) FolderPBData.
Definition EmptyFileNode : res node := rmap (fun b => NProto (resolve v0prefix) b []) (FilePBData None 0).

(** /repo/unixfs.go:416-445 *)
Definition ReadUnixFSNodeData (n : node) : res bytes :=
  match n with
  | NProto _ b _ =>
      match FSNodeFromBytes b with
      | Ok fs => if (getType fs =? TFile) || (getType fs =? TRaw) then Ok (getData fs)
                 else Err EUnexpectedPlace
      | Err e => Err e
      | Panic => Panic
      | Fuel => Fuel
      end
  | NRaw _ d => Ok d
  end.

(** /repo/unixfs.go:452-464 *)
Definition ExtractFSNode (n : node) : res FSNode :=
  match n with
  | NProto _ b _ => FSNodeFromBytes b
  | NRaw _ _ => Err EExpectedProto
  end.
