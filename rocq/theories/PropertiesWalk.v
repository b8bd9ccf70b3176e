(** Theorems about the enumeration of a sharded directory by parallel workers (C36, C37, C60). *)
From Verif Require Import Base Dag SpecHash HashProofs Hamt SpecHamt HamtExec HamtWitness Walk WalkDir WalkWitness DirMore.

(** C37: whatever the number of workers and the schedule, an enumeration that reports no
    error has delivered every entry exactly once. *)
Theorem C37_complete : forall hash n W b s w d m t links, (2 <= n)%nat -> (forall k, length (hash k) = n) -> valid_width W -> reached hash W b s w d ->
  wsteps w false (walk_start m s) t -> enum_returns t links None -> listing d (map named links).
Proof. exact walk_complete'. Qed.
Print Assumptions C37_complete.
(** At every moment of every schedule, also if the caller cancels: what has been
    delivered are entries of the directory, no name twice. *)
Theorem C37_sound : forall hash n W b s w d mayc m t, (2 <= n)%nat -> (forall k, length (hash k) = n) -> valid_width W -> reached hash W b s w d ->
  wsteps w mayc (walk_start m s) t -> NoDup (map lname (w_out t)) /\ forall l, In l (w_out t) -> d (lname l) = Some (lsize l, lto l).
Proof. exact walk_sound'. Qed.
Print Assumptions C37_sound.
(** The only error is that of a fetch, and no worker panics. *)
Theorem C37_errors : forall hash n W b s w d m t links e, (2 <= n)%nat -> (forall k, length (hash k) = n) -> valid_width W -> reached hash W b s w d ->
  wsteps w false (walk_start m s) t -> enum_returns t links (Some e) -> e = EFetch /\ exists x, w_getok w x = false.
Proof. exact walk_errors'. Qed.
Print Assumptions C37_errors.
Theorem C37_no_panic : forall hash n W b s w d mayc m t, (2 <= n)%nat -> (forall k, length (hash k) = n) -> valid_width W -> reached hash W b s w d ->
  wsteps w mayc (walk_start m s) t -> ~ walk_crashed t.
Proof. exact walk_no_crash'. Qed.
Print Assumptions C37_no_panic.
(** No deadlock, for any shard, also a malformed one, and with errors and cancellation:
    as long as not all goroutines have returned, and none has panicked, some step is
    possible. *)
Theorem C37_no_deadlock : forall w mayc m root t, (0 < m)%nat -> wsteps w mayc (walk_start m root) t ->
  walk_over t \/ walk_crashed t \/ exists u, wstep w mayc t u.
Proof. exact walk_progress. Qed.
Print Assumptions C37_no_deadlock.
(** Every schedule ends, within a number of steps that does not depend on it. *)
Theorem C37_ends : forall w mayc m root, exists bound, forall k t, wsteps_n w mayc k (walk_start m root) t -> (k <= bound)%nat.
Proof. exact walk_terminates. Qed.
Print Assumptions C37_ends.
(** A directory with a sub-shard to fetch, two workers: a run to the end, and one to the
    end with a block that cannot be fetched. *)
Example C37_case : valid_width 256 /\ reached hash8 256 None wdir wworld wcont /\
  wsteps wworld false (walk_start 2 wdir) wend /\ enum_returns wend (w_out wend) None /\ map lname (w_out wend) = [nc; na; nb] /\ wcont na = Some (1, rawn x01).
Proof. split; [exact width256|]. split; [exact wdir_reached|exact wend_case]. Qed.
Example C37_error_case : reached hash8 256 None wdir lost wcont /\
  wsteps lost false (walk_start 2 wdir) lostend /\ enum_returns lostend (w_out lostend) (Some EFetch) /\ map lname (w_out lostend) = [nc].
Proof. split; [exact lost_reached|exact lost_case]. Qed.

(** C36 for EnumLinks, with its 32 workers: without an error every entry is returned,
    once and under its plain name, and nothing else. *)
Theorem C36_enum_links : forall hash n W b s w d t links, (2 <= n)%nat -> (forall k, length (hash k) = n) -> valid_width W -> reached hash W b s w d ->
  wsteps w false (walk_start 32 s) t -> enum_returns t links None -> listing d (map named links).
Proof. exact (fun hash n W b s w d t links => walk_complete' hash n W b s w d 32 t links). Qed.
Print Assumptions C36_enum_links.

(** C60 is false: if the context is cancelled, EnumLinks may return no error and no
    entries of a directory that has some. *)
Theorem C60_cancelled_refuted : exists s w d t, reached hash8 256 None s w d /\ d na <> None /\ wsteps w true (walk_start 32 s) t /\ enum_returns t [] None.
Proof. exact cancelled_empty. Qed.
Print Assumptions C60_cancelled_refuted.
(** C60: what is returned are always entries, no name twice, whatever is cancelled. *)
Theorem C60_sound_partial : forall hash n W b s w d mayc m t links e, (2 <= n)%nat -> (forall k, length (hash k) = n) -> valid_width W -> reached hash W b s w d ->
  wsteps w mayc (walk_start m s) t -> enum_returns t links e -> NoDup (map lname links) /\ forall l, In l links -> d (lname l) = Some (lsize l, lto l).
Proof. exact returned_sound. Qed.
Print Assumptions C60_sound_partial.
(** C60: and all of them, if the context has not been cancelled by the time EnumLinks
    returns without an error. *)
Theorem C60_uncancelled_partial : forall hash n W b s w d mayc m t links, (2 <= n)%nat -> (forall k, length (hash k) = n) -> valid_width W -> reached hash W b s w d ->
  wsteps w mayc (walk_start m s) t -> w_cancel t = false -> enum_returns t links None -> listing d (map named links).
Proof. exact uncancelled. Qed.
Print Assumptions C60_uncancelled_partial.
Example C60_case : reached hash8 256 None wdir wworld wcont /\ exists t, wsteps wworld true (walk_start 32 wdir) t /\ w_cancel t = false /\ enum_returns t (w_out t) None /\ w_out t <> [].
Proof. split; [exact wdir_reached|exact midway_finished]. Qed.
