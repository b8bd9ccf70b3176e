(** Theorems about the channel of links of a basic directory (C79, C80). *)
From Verif Require Import Base Pb FSNode Dag Builder Hamt SpecHamt HamtExec HamtWitness Walk Directory SpecDir DirExec DirWitness Enum EnumProofs.

(** C79: a caller that keeps receiving gets every entry of the directory once, and then the
    channel is closed: the goroutine is never stuck and its runs are finite. *)
Theorem C79_enumeration : forall n b0 d0 ops w h b w' e, NewDirectoryFromNode n = Ok (DBasic b0) -> listing d0 (map named (node_links n)) -> brun ops (b0, w) = (h, (b, w')) -> eruns (enum_start b) e ->
  (e_closed e = true -> listing (dcontents d0 h) (map named (e_got e))) /\ (e_closed e = false -> exists e', estep e e') /\
  (forall f, f O = e -> ~ forall i, estep (f i) (f (S i))) /\ NoDup (map lname (e_got e)) /\ forall l, In l (e_got e) -> dcontents d0 h (lname l) = Some (lsize l, lto l).
Proof. exact enum_lists. Qed.
Print Assumptions C79_enumeration.
Example C79_case : NewDirectoryFromNode onenode = Ok (DBasic bone) /\ snd (brun [DAdd na ra] (bone, good_store)) = (etwo, good_store) /\
  eruns (enum_start etwo) (mkEnum etwo (Some []) [l1; l2] false false true) /\ map named [l1; l2] = [(nb, node_entry rb); (na, node_entry ra)].
Proof. exact etwo_case. Qed.
(** Whatever the caller does: what it has received are the first links of the directory, and
    a closed channel has delivered all of them unless the context was cancelled. *)
Theorem C79_prefix : forall d e, eany (enum_start d) e -> (exists r, b_links (e_dir e) = e_got e ++ r) /\ (e_closed e = true -> e_got e = b_links (e_dir e) \/ e_cancelled e = true).
Proof. exact enum_any. Qed.
Print Assumptions C79_prefix.
(** After the context is cancelled the goroutine ends, whether or not anyone receives. *)
Theorem C79_cancelled : forall e e', e_cancelled e = true -> eruns e e' -> (forall e'', ~ estep e' e'') -> e_closed e' = true.
Proof. exact cancelled_ends. Qed.
Print Assumptions C79_cancelled.
(** It is stuck for ever exactly when the caller has left without cancelling while links are
    still to be sent. *)
Theorem C79_leak : forall e, e_closed e = false -> ((forall e', ~ estep e e') <-> e_gone e = true /\ e_cancelled e = false /\ exists l r, e_todo e = Some (l :: r)).
Proof. exact stuck_iff. Qed.
Print Assumptions C79_leak.
Example C79_leak_case : exists e, eany (enum_start etwo) e /\ e_closed e = false /\ e_got e = [l1] /\ forall e', ~ estep e e'.
Proof. exact leak_case. Qed.

(** C80: "the channel delivers the directory as it was when EnumLinksAsync was called" is
    false: an entry added after the call is delivered when the goroutine starts later, and one removed after the call is not. *)
Theorem C80_snapshot_refuted : exists d d' k n e, bAddChild k n d = (Ok tt, d') /\ ecaller (enum_start d) (enum_start d') /\ eany (enum_start d) e /\
  e_closed e = true /\ e_cancelled e = false /\ e_got e = b_links d' /\ length (e_got e) = S (length (b_links d)).
Proof. exact late_read. Qed.
Print Assumptions C80_snapshot_refuted.
Theorem C80_removed_refuted : exists d d' k e, bRemoveChild k d = (Ok tt, d') /\ ecaller (enum_start d) (enum_start d') /\ eany (enum_start d) e /\
  e_closed e = true /\ e_cancelled e = false /\ e_gone e = false /\ e_got e = b_links d' /\ S (length (e_got e)) = length (b_links d).
Proof. exact late_removal. Qed.
Print Assumptions C80_removed_refuted.
(** "An enumeration cut short can be told from a complete one" is false too: the links
    received and the closed channel are the same as for a smaller directory. *)
Theorem C80_truncation_refuted : exists d d' e e', eany (enum_start d) e /\ eruns (enum_start d') e' /\ e_closed e = true /\ e_closed e' = true /\ e_got e = e_got e' /\
  e_dir e = d /\ e_got e' = b_links d' /\ (length (b_links d') < length (b_links d))%nat.
Proof. exact cut_short. Qed.
Print Assumptions C80_truncation_refuted.
