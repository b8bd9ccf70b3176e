(** Model of BasicDirectory.EnumLinksAsync (/repo/io/directory.go:263-279): the goroutine
    it starts, the channel without buffer, and the caller that receives from it. *)
From Verif Require Import Base Pb FSNode Dag Builder HashBits Bitfield Hamt HamtExec Walk Directory.

(** [e_todo]: what the goroutine has still to send, [None] before it has read the links of
    the directory (line 267: when it is scheduled, not when EnumLinksAsync is called).
    [e_got]: what the caller has received. [e_gone]: the caller has stopped receiving. *)
Record enum := mkEnum { e_dir : basic; e_todo : option (list link); e_got : list link; e_cancelled : bool; e_gone : bool; e_closed : bool }.

(** /repo/io/directory.go:263-265, 278 *)
Definition enum_start (d : basic) : enum := mkEnum d None [] false false false.

(** Steps of the goroutine (/repo/io/directory.go:265-277) and of the caller. The caller may
    change the directory; once the goroutine ranges over the slice of links, whether that
    changes the slice depends on go-merkledag, so it is not modelled. (For the Go memory
    model a change before the goroutine has read the links is a race as well; here each
    step is atomic, which is the best that can happen.) *)
Inductive estep : enum -> enum -> Prop :=
| es_read d g c x : estep (mkEnum d None g c x false) (mkEnum d (Some (b_links d)) g c x false)
| es_send d l r g c : estep (mkEnum d (Some (l :: r)) g c false false) (mkEnum d (Some r) (g ++ [l]) c false false)
| es_quit d l r g x : estep (mkEnum d (Some (l :: r)) g true x false) (mkEnum d (Some (l :: r)) g true x true)
| es_close d g c x : estep (mkEnum d (Some []) g c x false) (mkEnum d (Some []) g c x true).
Inductive ecaller : enum -> enum -> Prop :=
| ec_cancel d t g x z : ecaller (mkEnum d t g false x z) (mkEnum d t g true x z)
| ec_leave d t g c z : ecaller (mkEnum d t g c false z) (mkEnum d t g c true z)
| ec_add d g c x k n d' : bAddChild k n d = (Ok tt, d') -> ecaller (mkEnum d None g c x false) (mkEnum d' None g c x false)
| ec_remove d g c x k d' : bRemoveChild k d = (Ok tt, d') -> ecaller (mkEnum d None g c x false) (mkEnum d' None g c x false).

(** Runs of the goroutine (/repo/io/directory.go:265-277) with a caller that only receives,
    and with any caller. *)
Inductive eruns : enum -> enum -> Prop :=
| er_refl e : eruns e e
| er_step e e1 e2 : estep e e1 -> eruns e1 e2 -> eruns e e2.
Inductive eany : enum -> enum -> Prop :=
| ea_refl e : eany e e
| ea_step e e1 e2 : estep e e1 -> eany e1 e2 -> eany e e2
| ea_caller e e1 e2 : ecaller e e1 -> eany e1 e2 -> eany e e2.
