(** C81-C83: sharded directories as objects. *)
From Verif Require Import Base Pb FSNode Dag Builder HashBits Bitfield Hamt HeapHamt SpecHeap HeapStep HeapEnd DirWitness HamtWitness HeapWitness.

(** C81. Any program, with any number of directories, some of them made from the same node,
    and with nodes and links kept in hand, sees what it would see if directories, nodes and
    links were values: what is done to one is not noticed by any other. *)
Theorem C81_objects_are_values : forall (hash : bytes -> bytes) (w : world) (ops : list hop),
  fst (orun hash ops (ostart w)) = fst (vrun hash ops (vstart w)).
Proof. exact same_observations. Qed.
Print Assumptions C81_objects_are_values.
Example C81_applies : length (seen two_dirs (ostart good_store)) = 22%nat /\ Forall (fun b => stops b = false /\ b <> SBad) (seen two_dirs (ostart good_store)) /\ In (SErr ENotExist) (seen two_dirs (ostart good_store)).
Proof. exact two_dirs_case. Qed.

(** A link in hand, however it was got, keeps its size and target whatever is done later. *)
Theorem C81_links_keep_target : forall (hash : bytes -> bytes) w ops1 bs1 st1 ops2 bs2 st2 la src, orun hash ops1 (ostart w) = (bs1, st1) -> quiet bs1 -> orun hash ops2 st1 = (bs2, st2) -> quiet bs2 -> In (la, src) (o_links st1) ->
  exists l1 l2, nth_error (h_links (o_h st1)) la = Some l1 /\ nth_error (h_links (o_h st2)) la = Some l2 /\ lsize l2 = lsize l1 /\ lto l2 = lto l1.
Proof. exact links_kept. Qed.
Print Assumptions C81_links_keep_target.

(** C82. Links that the program made itself and gave to SetLink, and links it got from Swap or
    Take, do not change at all, nor does the name. *)
Theorem C82_own_and_taken_links_partial : forall (hash : bytes -> bytes) w ops1 bs1 st1 ops2 bs2 st2 la src, orun hash ops1 (ostart w) = (bs1, st1) -> quiet bs1 -> orun hash ops2 st1 = (bs2, st2) -> quiet bs2 ->
  In (la, src) (o_links st1) -> src = Made \/ src = Taken -> exists l, nth_error (h_links (o_h st1)) la = Some l /\ nth_error (h_links (o_h st2)) la = Some l.
Proof. exact frozen_links. Qed.
Print Assumptions C82_own_and_taken_links_partial.

(** A link got from Find always has the name asked for at the end of its name. *)
Theorem C82_found_name_end_partial : forall (hash : bytes -> bytes) w ops1 bs1 st1 ops2 bs2 st2 la name, orun hash ops1 (ostart w) = (bs1, st1) -> quiet bs1 -> orun hash ops2 st1 = (bs2, st2) -> quiet bs2 -> In (la, Found name) (o_links st1) ->
  exists l p, nth_error (h_links (o_h st2)) la = Some l /\ lname l = p ++ name.
Proof. exact found_links. Qed.
Print Assumptions C82_found_name_end_partial.
Example C82_applies : exists bs1 st1 bs2 st2, orun hash8 handles (ostart good_store) = (bs1, st1) /\ quiet bs1 /\ orun hash8 later st1 = (bs2, st2) /\ quiet bs2 /\ Forall (fun b => b <> SBad) bs2 /\
  (exists la, In (la, Made) (o_links st1)) /\ (exists la, In (la, Taken) (o_links st1)) /\ (exists la, In (la, Found [x61]) (o_links st1)) /\ exists la, In (la, Walked) (o_links st1).
Proof. exact handles_case. Qed.

(** False for links got from ForEachLink or Find: they are the directory's own objects.
    A link seen as "a" has another name after SetLink of "b". *)
Theorem C82_walked_link_renamed_refuted : exists st1 st2 la l1 l2 bs1 bs2, orun hash8 [HNewShard 8 None; HMakeLink some_link; HSetL 0 [x61] 0; HEach 0 (fun _ _ => None)] (ostart good_store) = (bs1, st1) /\ quiet bs1 /\
  orun hash8 [HSetL 0 [x62] 0] st1 = (bs2, st2) /\ quiet bs2 /\ In (la, Walked) (o_links st1) /\ nth_error (h_links (o_h st1)) la = Some l1 /\ lname l1 = [x61] /\ nth_error (h_links (o_h st2)) la = Some l2 /\ lname l2 <> [x61].
Proof. exact walked_renamed. Qed.
Print Assumptions C82_walked_link_renamed_refuted.
Theorem C82_found_link_renamed_refuted : exists st1 st2 la l1 l2 bs1 bs2, orun hash8 [HNewShard 8 None; HMakeLink some_link; HSetL 0 [x61] 0; HFindN 0 [x61]] (ostart good_store) = (bs1, st1) /\ quiet bs1 /\
  orun hash8 [HEach 0 (fun _ _ => None)] st1 = (bs2, st2) /\ quiet bs2 /\ In (la, Found [x61]) (o_links st1) /\ nth_error (h_links (o_h st1)) la = Some l1 /\ nth_error (h_links (o_h st2)) la = Some l2 /\ lname l1 <> lname l2.
Proof. exact found_renamed. Qed.
Print Assumptions C82_found_link_renamed_refuted.

(** C83. False: a callback of ForEachLink that removes the entry it is given makes the walk
    skip entries and fail (a, b, c, d are there; a and c are seen) ... *)
Theorem C83_removing_in_callback_refuted : exists st h2 acc, orun hash8 abcd (ostart good_store) = ([SOk; SOk; SOk; SOk; SOk; SOk], st) /\ o_dirs st = [0%nat] /\
  hForEachLink good_store (removing 0%nat) 0%nat (o_h st, []) = (Err EInvalidChild, (h2, acc)) /\ names_of h2 (rev acc) = Some [[x61]; [x63]].
Proof. exact removing_case. Qed.
Print Assumptions C83_removing_in_callback_refuted.
(** ... and one that adds an entry makes it succeed with one entry seen twice and another one
    not at all (b, c, d are there). *)
Theorem C83_adding_in_callback_refuted : exists st h2 acc, orun hash8 bcd (ostart good_store) = ([SOk; SOk; SOk; SOk; SOk], st) /\ o_dirs st = [0%nat] /\
  hForEachLink good_store (adding 0%nat [x61]) 0%nat (o_h st, []) = (Ok tt, (h2, acc)) /\ names_of h2 (rev acc) = Some [[x62]; [x62]; [x63]].
Proof. exact adding_case. Qed.
Print Assumptions C83_adding_in_callback_refuted.
