(** Model of /repo/importer/importer.go. *)
From Verif Require Import Base Pb FSNode Dag Builder Balanced Trickle.

(** [db, err := dbp.New(spl)] followed by a layout; the code in importer.go uses the
    default parameters, other callers their own. /repo/importer/importer.go:18-45 *)
Definition build (layout : M db node) (dbp : params) (fileinfo : bool) (spl : list event) (w : world) : res node * world :=
  match New dbp fileinfo spl w with
  | Ok d => let (r, d') := layout d in (r, db_w d')
  | Err e => (Err e, w)
  | Panic => (Panic, w)
  | Fuel => (Fuel, w)
  end.
Definition balanced_import (fuel : nat) := build (Balanced.Layout fuel).
Definition trickle_import (fuel : nat) := build (Trickle.Layout fuel).

(** [db, err := dbp.New(spl)] followed by Append, as in
    /repo/mod/dagmodifier.go:363-373; the second component is the base node afterwards. *)
Definition trickle_append (fuel rfuel : nat) (dbp : params) (fileinfo : bool) (spl : list event) (base : node) (w : world)
  : res node * node * world :=
  match New dbp fileinfo spl w with
  | Ok d => let '(r, base', d') := Append fuel rfuel base d in (r, base', db_w d')
  | Err e => (Err e, base, w)
  | Panic => (Panic, base, w)
  | Fuel => (Fuel, base, w)
  end.

(** /repo/importer/helpers/helpers.go:13-14, 32-36: 8192 / 47. *)
Definition DefaultLinksPerBlock : Z := 8192 / (34 + 8 + 5).
Definition default_params : params := mkParams DefaultLinksPerBlock false None false.

(** /repo/importer/importer.go:18-28 and 34-45 *)
Definition BuildDagFromReader (fuel : nat) := balanced_import fuel default_params.
Definition BuildTrickleDagFromReader (fuel : nat) := trickle_import fuel default_params.
