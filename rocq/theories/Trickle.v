(** Model of /repo/importer/trickle/trickledag.go. *)
From Verif Require Import Base Pb FSNode Dag Builder.

(** /repo/importer/trickle/trickledag.go:34 *)
Definition depthRepeat : Z := 4.

(** Repeated addition of sub-graphs: [for ; k > 0 && !db.Done(); k-- { AddChild(mk()) }].
    /repo/importer/trickle/trickledag.go:69-79, 137-147, 189-199, 238-248 *)
Fixpoint add_children (mk : M db (xnode * Z)) (k : nat) : M (fsn * db) unit :=
  match k with
  | O => ret tt
  | S k' =>
      do d <- on_db Done ;;
      if d : bool then ret tt
      else do c <- on_db mk ;;
           do _ <- AddChild (fst c) (snd c) ;;
           add_children mk k'
  end.

(** The outer loop over depths: [for depth := i; maxDepth == -1 || depth < maxDepth; depth++]
    stopping when the input is exhausted. /repo/importer/trickle/trickledag.go:62-80,
    136-148 (maxDepth -1), 237-249 *)
Fixpoint depth_loop (fill : Z -> M db (xnode * Z)) (fuel : nat) (depth maxDepth : Z) : M (fsn * db) unit :=
  if (maxDepth =? -1) || (depth <? maxDepth) then
    do d <- on_db Done ;;
    if d : bool then ret tt
    else do _ <- add_children (fill depth) (Z.to_nat depthRepeat) ;;
         match fuel with
         | O => lift Fuel
         | S f => depth_loop fill f (depth + 1) maxDepth
         end
  else ret tt.

(** /repo/importer/trickle/trickledag.go:54-89 (the node is the state). *)
Fixpoint fillTrickleRec (fuel : nat) (maxDepth : Z) : M (fsn * db) unit :=
  match fuel with
  | O => lift Fuel
  | S f =>
      do _ <- FillNodeLayer ;;
      do _ <- depth_loop
        (fun depth b => with_new (NewFSNodeOverDag (db_builder b) TFile) (fillTrickleRec f depth) b)
        f 1 maxDepth ;;
      commit
  end.

(** A new sub-graph of the given depth. /repo/importer/trickle/trickledag.go:71, 138-139,
    190-191, 239-240 *)
Definition new_subtree (fuel : nat) (depth : Z) : M db (xnode * Z) := fun b =>
  with_new (NewFSNodeOverDag (db_builder b) TFile) (fillTrickleRec fuel depth) b.

(** /repo/importer/trickle/trickledag.go:41-49 *)
Definition Layout (fuel : nat) : M db node :=
  do r <- new_subtree fuel (-1) ;;
  do _ <- Add (fst r) ;;
  ret (seal (fst (fst r))).

(** /repo/importer/trickle/trickledag.go:257-280 (Go division truncates; the
    dividend is not negative here). *)
Definition trickleDepthInfo (n : fsn) (maxlinks : Z) : Z * Z :=
  let c := fNumChildren n in
  if c <? maxlinks then (0, 0)
  else ((c - maxlinks) / depthRepeat + 1, (c - maxlinks) mod depthRepeat).

(** Reading the node of the state. *)
Definition get_fsn : M (fsn * db) fsn := fun s => (Ok (fst s), s).
Definition set_fsn (n : fsn) : M (fsn * db) unit := fun s => (Ok tt, (n, snd s)).
Definition get_db : M (fsn * db) db := fun s => (Ok (snd s), s).
(** Running on another node with the same helper; that node is returned. *)
Definition on_fsn (n : fsn) (m : M (fsn * db) unit) : M (fsn * db) fsn := fun s =>
  match m (n, snd s) with
  | (Ok _, (n', d')) => (Ok n', (fst s, d'))
  | (Err e, (_, d')) => (Err e, (fst s, d'))
  | (Panic, (_, d')) => (Panic, (fst s, d'))
  | (Fuel, (_, d')) => (Fuel, (fst s, d'))
  end.

(** appendFillLastChild and appendRec are mutually recursive; the recursion goes
    down the last child. [rec] is appendRec on the child.
    /repo/importer/trickle/trickledag.go:156-203 *)
Definition appendFillLastChild (fuel : nat) (rec : Z -> M (fsn * db) unit) (depth repeatNumber : Z)
  : M (fsn * db) unit :=
  do n <- get_fsn ;;
  do b <- get_db ;;
  if fNumChildren n <=? db_maxlinks b then ret tt
  else
    let last := fNumChildren n - 1 in
    do lastChild <- lift (GetChild last n (db_w b)) ;;
    do newChild <- on_fsn lastChild (rec (depth - 1)) ;;
    do n1 <- lift (RemoveChild last n) ;;
    do _ <- set_fsn n1 ;;
    do filled <- lift (Commit newChild) ;;
    do _ <- AddChild (GetDagNode filled, None) (fFileSize newChild) ;;
    if repeatNumber =? 0 then ret tt
    else add_children (new_subtree fuel depth) (Z.to_nat (depthRepeat - repeatNumber)).

(** /repo/importer/trickle/trickledag.go:206-252 (the node is the state; the
    returned size is its FileSize). [rfuel] bounds the recursion along last children. *)
Fixpoint appendRec (fuel rfuel : nat) (maxDepth : Z) : M (fsn * db) unit :=
  if maxDepth =? 0 then ret tt else
  do dn <- on_db Done ;;
  if dn : bool then ret tt else
  match rfuel with
  | O => lift Fuel
  | S rf =>
      do n <- get_fsn ;;
      do b <- get_db ;;
      let (depth0, repeatNumber) := trickleDepthInfo n (db_maxlinks b) in
      do depth <- (if depth0 =? 0 then do _ <- FillNodeLayer ;; ret 1 else ret depth0) ;;
      if depth =? maxDepth then ret tt else
      do _ <- appendFillLastChild fuel (appendRec fuel rf) depth repeatNumber ;;
      do d2 <- on_db Done ;;
      let depth' := if d2 : bool then depth else depth + 1 in
      (if (depth' <? maxDepth) then depth_loop (new_subtree fuel) fuel depth' maxDepth else ret tt)
  end.

(** The part of Append after the node has been opened.
    /repo/importer/trickle/trickledag.go:107-153 *)
Definition append_body (fuel rfuel : nat) : M (fsn * db) unit :=
  do n <- get_fsn ;;
  do b <- get_db ;;
  let (depth0, repeatNumber) := trickleDepthInfo n (db_maxlinks b) in
  do cont <- (if depth0 =? 0 then
                do _ <- FillNodeLayer ;;
                do d1 <- on_db Done ;;
                ret (if d1 : bool then None else Some 1)
              else ret (Some depth0)) ;;
  match cont with
  | None => ret tt
  | Some depth =>
      do _ <- appendFillLastChild fuel (appendRec fuel rfuel) (depth - 1) repeatNumber ;;
      do d2 <- on_db Done ;;
      let depth' := if d2 : bool then depth else depth + 1 in
      do _ <- depth_loop (new_subtree fuel) fuel depth' (-1) ;;
      commit
  end.

(** /repo/importer/trickle/trickledag.go:94-154. The base node is modified in place,
    also when an error is returned: the second component is the base node afterwards. *)
Definition Append (fuel rfuel : nat) (base : node) (d : db) : res node * node * db :=
  match base with
  | NRaw _ _ => (Err ENotProtobuf, base, d)
  | NProto p b ls =>
      match NewFSNFromDag p b ls with
      | Ok n =>
          match append_body fuel rfuel (n, d) with
          | (Ok _, (n', d')) => (Ok (GetDagNode n'), GetDagNode n', d')
          | (Err e, (n', d')) => (Err e, GetDagNode n', d')
          | (Panic, (n', d')) => (Panic, GetDagNode n', d')
          | (Fuel, (n', d')) => (Fuel, GetDagNode n', d')
          end
      | Err e => (Err e, base, d)
      | Panic => (Panic, base, d)
      | Fuel => (Fuel, base, d)
      end
  end.

(** ** Verification *)

(** /repo/importer/trickle/trickledag.go:285-291 (the getter is the world). *)
Record vparams := mkVparams { v_direct : Z; v_repeat : Z; v_prefix : option prefix; v_raw : bool }.

(** The prefix check. /repo/importer/trickle/trickledag.go:334-347 *)
Definition check_prefix (n : node) (codec : Z) (p : vparams) : res unit :=
  match v_prefix p with
  | None => Ok tt
  | Some e =>
      let pre := node_prefix n in
      let expect := mkPrefix (if (codec =? RawCodec) && (p_version e =? 0) then 1 else p_version e)
                      codec (p_mhtype e) (if p_mhlen e =? -1 then p_mhlen pre else p_mhlen e) in
      if prefix_eqb pre expect then Ok tt else Err EVerify
  end.

(** Depth zero: a data block. /repo/importer/trickle/trickledag.go:303-351 *)
Definition verify_leaf (n : node) (p : vparams) : res unit :=
  if 0 <? zlen (node_links n) then Err EVerify
  else
    let? codec := match n with
                  | NProto _ b _ =>
                      let? f := FSNodeFromBytes b in
                      if negb (getType f =? TRaw) then Err EVerify
                      else if v_raw p then Err EVerify else Ok DagProtobuf
                  | NRaw _ _ => if v_raw p then Ok RawCodec else Err EVerify
                  end in
    check_prefix n codec p.

(** /repo/importer/trickle/trickledag.go:302-397; a zero LayerRepeat panics (Go
    integer division) when reached. *)
Fixpoint verifyTDagRec (w : world) (p : vparams) (n : node) (depth : Z) {struct n} : res unit :=
  if depth =? 0 then verify_leaf n p
  else
    let? _ := check_prefix n DagProtobuf p in
    match n with
    | NRaw _ _ => Err EVerify
    | NProto _ b ls =>
        let? f := FSNodeFromBytes b in
        if negb (getType f =? TFile) then Err EVerify
        else if 0 <? zlen (getData f) then Err EVerify
        else
          (fix go (i : Z) (ls : list (plink node)) {struct ls} : res unit :=
             match ls with
             | [] => Ok tt
             | l :: r =>
                 let? _ := dserv_get w (lto l) in
                 if i <? v_direct p then
                   let? _ := verifyTDagRec w p (lto l) 0 in go (i + 1) r
                 else if v_repeat p =? 0 then Panic
                 else
                   let rdepth := Z.quot (i - v_direct p) (v_repeat p) + 1 in
                   if (depth <=? rdepth) && (0 <? depth) then Err EVerify
                   else let? _ := verifyTDagRec w p (lto l) rdepth in go (i + 1) r
             end) 0 ls
    end.

(** /repo/importer/trickle/trickledag.go:297-299 *)
Definition VerifyTrickleDagStructure (w : world) (n : node) (p : vparams) : res unit :=
  verifyTDagRec w p n (-1).
