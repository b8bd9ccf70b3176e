(** Specification of UnixFS file DAGs, independent of the importers and the reader. *)
From Verif Require Import Base Pb FSNode Dag.

(** ** Files *)

Definition mod64 (z : Z) : Z := z mod 18446744073709551616.

(** [file_dag n cs]: [n] is the root of a UnixFS file whose leaves hold, from left
    to right, the chunks [cs]; every recorded size is the number of bytes below it
    (as a 64-bit number) and inner nodes hold no data themselves. *)
Inductive file_dag : node -> list bytes -> Prop :=
| fd_raw p d : file_dag (NRaw p d) [d]
| fd_leaf p b fs :
    FSNodeFromBytes b = Ok fs -> getType fs = TFile \/ getType fs = TRaw ->
    d_blocksizes fs = [] -> d_filesize fs = Some (mod64 (zlen (getData fs))) ->
    file_dag (NProto p b []) [getData fs]
| fd_node p b fs ls css :
    ls <> [] -> Forall (fun l => lname l = []) ls ->
    FSNodeFromBytes b = Ok fs -> getType fs = TFile \/ getType fs = TRaw -> getData fs = [] ->
    Forall2 file_dag (map lto ls) css ->
    d_blocksizes fs = map (fun cs => mod64 (zlen (concat cs))) css ->
    d_filesize fs = Some (mod64 (zlen (concat (concat css)))) ->
    file_dag (NProto p b ls) (concat css).

(** The content of a file. *)
Definition file_content (n : node) (b : bytes) : Prop :=
  exists cs, file_dag n cs /\ b = concat cs.

(** ** Blocks *)

(** The blocks of a DAG. *)
Inductive reach : node -> node -> Prop :=
| reach_self n : reach n n
| reach_link n l m : In l (node_links n) -> reach (lto l) m -> reach n m.

(** Exact cumulative size: encoded size of a node's block plus that of everything
    below it, counted per link. *)
Fixpoint cumulative (n : node) : Z :=
  block_len n +
  match n with
  | NRaw _ _ => 0
  | NProto _ _ ls => fold_right Z.add 0 (map (fun l => cumulative (lto l)) ls)
  end.

(** All link sizes in a DAG are exact (as 64-bit numbers). *)
Definition tsizes_exact (n : node) : Prop :=
  forall m l, reach n m -> In l (node_links m) -> lsize l = mod64 (cumulative (lto l)).

(** ** Chunk sources *)

(** Filestore positions: for chunks [cs] starting at file position [o], the
    position of each chunk. *)
Fixpoint positions (o : Z) (cs : list bytes) : list (bytes * Z) :=
  match cs with
  | [] => []
  | c :: r => (c, mod64 o) :: positions (o + zlen c) r
  end.

(** ** Shapes of balanced trees *)

Section Balanced.
  Variable k : Z.  (* link limit *)

  Definition is_leaf (n : node) : Prop := node_links n = [].

  (** All leaves at depth [d]; at most [k] links per node, at least one in inner nodes. *)
  Fixpoint balanced (d : nat) (n : node) : Prop :=
    match d with
    | O => is_leaf n
    | S d' => node_links n <> [] /\ zlen (node_links n) <= k /\
              Forall (fun l => balanced d' (lto l)) (node_links n)
    end.

  (** Complete tree of depth [d]: every inner node has [k] links. *)
  Fixpoint perfect (d : nat) (n : node) : Prop :=
    match d with
    | O => is_leaf n
    | S d' => zlen (node_links n) = k /\ Forall (fun l => perfect d' (lto l)) (node_links n)
    end.

  (** Everything left of the rightmost path is complete. *)
  Fixpoint left_full (d : nat) (n : node) : Prop :=
    match d with
    | O => is_leaf n
    | S d' => exists ls l, node_links n = ls ++ [l] /\ zlen (ls ++ [l]) <= k /\
                           Forall (fun l => perfect d' (lto l)) ls /\ left_full d' (lto l)
    end.
End Balanced.

(** ** Block formats *)

(** With [raw] every leaf is a raw block and everything else is dag-pb; block CIDs
    have the prefixes [pl] (leaves) and [pi] (inner nodes). *)
Definition uniform (raw : bool) (pl pi : prefix) (n : node) : Prop :=
  forall m, reach n m ->
    (node_links m = [] -> node_prefix m = pl /\ (if raw then exists b, m = NRaw pl b else exists b, m = NProto pl b [])) /\
    (node_links m <> [] -> node_prefix m = pi).

(** ** Trickle shape *)

(** Leaves and inner nodes of a trickle tree; [p]: check of the CID prefix. *)
Definition trickle_leaf (raw : bool) (p : prefix -> Prop) (n : node) : Prop :=
  if raw then exists q b, n = NRaw q b /\ p q
  else exists q b f, n = NProto q b [] /\ p q /\ FSNodeFromBytes b = Ok f /\ getType f = TRaw.
Definition trickle_inner (p : prefix -> Prop) (n : node) : Prop :=
  exists q b ls f, n = NProto q b ls /\ p q /\ FSNodeFromBytes b = Ok f /\ getType f = TFile /\ getData f = [].

Section Trickle.
  Variables (k r : Z) (leaf inner : node -> Prop).

  (** Depth of the sub-graph at link position [i]. *)
  Definition layer (i : nat) : Z := (Z.of_nat i - k) / r + 1.

  (** [trickle D n]: [k] data leaves, then [r] sub-graphs of each depth 1, 2, ...;
      below depth [D] (no limit if [D] is -1). *)
  Inductive trickle : Z -> node -> Prop :=
  | trickle_node D n :
      inner n ->
      (forall i l, nth_error (node_links n) i = Some l -> Z.of_nat i < k -> leaf (lto l)) ->
      (forall i l, nth_error (node_links n) i = Some l -> k <= Z.of_nat i -> D = -1 \/ layer i < D) ->
      (forall i l, nth_error (node_links n) i = Some l -> k <= Z.of_nat i -> trickle (layer i) (lto l)) ->
      trickle D n.

  (** A sub-graph of depth [D] with no free place. *)
  Inductive complete : Z -> node -> Prop :=
  | complete_node D n :
      zlen (node_links n) = k + r * (D - 1) ->
      (forall i l, nth_error (node_links n) i = Some l -> k <= Z.of_nat i -> complete (layer i) (lto l)) ->
      complete D n.

  (** Only the rightmost path has free places. *)
  Inductive left_complete : node -> Prop :=
  | left_complete_node n :
      (forall i l, nth_error (node_links n) i = Some l -> k <= Z.of_nat i -> (S i < length (node_links n))%nat ->
         complete (layer i) (lto l)) ->
      (forall i l, nth_error (node_links n) i = Some l -> k <= Z.of_nat i -> (S i = length (node_links n))%nat ->
         left_complete (lto l)) ->
      left_complete n.
End Trickle.

(** The CID prefix a block must have when the prefix [e] was asked for. *)
Definition prefix_expected (e : option prefix) (codec : Z) (q : prefix) : Prop :=
  match e with
  | None => True
  | Some e =>
      p_codec q = codec /\ p_mhtype q = p_mhtype e /\ (p_mhlen e <> -1 -> p_mhlen q = p_mhlen e) /\
      p_version q = (if (codec =? RawCodec) && (p_version e =? 0) then 1 else p_version e)
  end.

(** Every block strictly below [n] can be fetched. *)
Definition below_available (w : world) (n : node) : Prop :=
  forall l m, In l (node_links n) -> reach (lto l) m -> dserv_get w m = Ok m.

(** A trickle file with [k] direct leaves and [r] sub-graphs per layer. *)
Definition trickle_file (k r : Z) (raw : bool) (e : option prefix) : Z -> node -> Prop :=
  trickle k r (trickle_leaf raw (prefix_expected e (if raw then RawCodec else DagProtobuf)))
    (trickle_inner (prefix_expected e DagProtobuf)).

(** ** Recorded size of a file node *)
Definition recorded_size (n : node) (s : Z) : Prop :=
  match n with
  | NRaw _ d => s = zlen d
  | NProto _ b _ => exists f, FSNodeFromBytes b = Ok f /\ FileSize f = s
  end.

(** ** Filestore references in a log of added blocks *)
Definition filestore_refs (l : list (node * option Z)) : list (bytes * Z) :=
  flat_map (fun x => match snd x with Some o => [(node_bytes (fst x), o)] | None => [] end) l.

(** ** Faults of an import: a bad chunk source or a failing store *)
Definition source_ok (limit : Z) (c : list bytes) : Prop := Forall (fun b => zlen b <= limit) c.
