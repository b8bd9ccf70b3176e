(** Specification of directories whose recorded sizes are exact. *)
From Verif Require Import Base Pb FSNode Dag SpecFile SpecHamt SpecDir.

(** An entry (recorded size, target): the size is that of the blocks below, here and
    further down. *)
Definition exact_entry (e : dentry) : Prop := fst e = mod64 (cumulative (snd e)) /\ tsizes_exact (snd e).
(** What an operation delivers. *)
Definition exact_result (r : res hval) : Prop :=
  match r with
  | Ok (VOld (Some e)) | Ok (VEntry e) => exact_entry e
  | Ok (VList l) => forall k e, In (k, e) l -> exact_entry e
  | Ok (VNode n) => tsizes_exact n
  | _ => True
  end.
(** What a client gives. *)
Definition exact_hop (op : hop) : Prop :=
  match op with HSet _ n | HSwap _ n => tsizes_exact n | HSetLink _ l => exact_entry (lsize l, lto l) | _ => True end.
Definition exact_dop (op : dop) : Prop := match op with DAdd _ n => tsizes_exact n | _ => True end.
