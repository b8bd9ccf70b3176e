(** Model of /repo/importer/balanced/builder.go. *)
From Verif Require Import Base Pb FSNode Dag Builder.

(** /repo/importer/balanced/builder.go:220-269 (the node is the state; the file
    size is taken before Commit, which does not change it). *)
Fixpoint fillNodeRec (depth : nat) : M (fsn * db) unit := fun s =>
  match depth with
  | O => (Err EOther, s)
  | S d =>
      (do _ <- fill_loop
         (match d with
          | O => NewLeafDataNode TFile
          | S _ => fun b => with_new (NewFSNodeOverDag (db_builder b) TFile) (fillNodeRec d) b
          end) (room s) ;;
       commit) s
  end.

(** The loop of Layout. /repo/importer/balanced/builder.go:159-175 *)
Fixpoint layout_loop (fuel : nat) (depth : nat) (root : xnode) (fileSize : Z) : M db xnode :=
  do d <- Done ;;
  if d : bool then ret root
  else match fuel with
       | O => lift Fuel
       | S f =>
           do r <- (fun b => with_new (NewFSNodeOverDag (db_builder b) TFile)
                      (do _ <- AddChild root fileSize ;; fillNodeRec depth) b) ;;
           layout_loop f (S depth) (fst r) (snd r)
       end.

(** /repo/importer/balanced/builder.go:134-178. The root is returned after the Add
    call has encoded it. *)
Definition Layout (fuel : nat) : M db node :=
  do d <- Done ;;
  if d : bool then
    do n <- (fun b => (NewLeafNode None TFile b, b)) ;;
    do _ <- Add (n, None) ;;
    ret (seal n)
  else
    do r <- NewLeafDataNode TFile ;;
    do root <- layout_loop fuel 1 (fst r) (snd r) ;;
    do _ <- Add root ;;
    ret (seal (fst root)).
