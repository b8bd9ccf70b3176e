(** Model of /repo/io/resolve.go. *)
From Verif Require Import Base Pb FSNode Dag Builder HashBits Bitfield Hamt HamtExec Walk Directory.

(** go-merkledag [ProtoNode.ResolveLink] and [RawNode.ResolveLink].
    /repo/io/resolve.go:23, 42 *)
Definition ResolveLink (nd : node) (names : list bytes) : res (option link * list bytes) :=
  match nd, names with
  | NRaw _ _, _ => Err ELinkNotFound
  | NProto _ _ _, [] => Err ENoPath
  | NProto _ _ ls, k :: r => match GetNodeLink k ls with None => Err ELinkNotFound | Some l => Ok (Some l, r) end
  end.

(** /repo/io/resolve.go:17-43. The shard is thrown away afterwards; the read-only DAG
    service of line 27 only matters for additions, of which there are none. *)
Definition ResolveUnixfsOnce (hash : bytes -> bytes) (w : world) (nd : node) (names : list bytes) : res (option link * list bytes) :=
  match nd with
  | NProto _ d _ =>
      match FSNodeFromBytes d with
      | Ok fsn =>
          if getType fsn =? THAMTShard then
            let? s := NewHamtFromDag nd in
            match names with
            | [] => Panic
            | k :: r => rmap (fun l => (l, r)) (fst (Find hash w k s))
            end
          else ResolveLink nd names
      | Err _ => ResolveLink nd names
      | Panic => Panic
      | Fuel => Fuel
      end
  | NRaw _ _ => ResolveLink nd names
  end.

(** Following a path hop by hop, as the resolvers that use ResolveUnixfsOnce do: the
    target of the link is fetched and the remaining names are resolved in it. Not in
    /repo; a client of /repo/io/resolve.go:17. *)
Fixpoint resolve_all (hash : bytes -> bytes) (w : world) (fuel : nat) (nd : node) (names : list bytes) : res node :=
  match names, fuel with
  | [], _ => Ok nd
  | _, O => Fuel
  | _, S f =>
      let? x := ResolveUnixfsOnce hash w nd names in
      match fst x with
      | Some l => let? n1 := dserv_get w (lto l) in resolve_all hash w f n1 (snd x)
      | None => Panic
      end
  end.
