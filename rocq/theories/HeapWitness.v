(** Concrete programs on objects. *)
From Verif Require Import Base Pb FSNode Dag Builder HashBits Bitfield Hamt HeapHamt SpecHeap HeapStep HeapEnd DirWitness HamtWitness.

Definition raw_a : node := NRaw v0prefix [x61].
Definition some_link : link := mkLink [x7a] 7 raw_a.
(** Two directories from one node, changed differently; everything in hand is looked at again. *)
Definition two_dirs : list hop :=
  [HNewShard 8 None; HMakeLink some_link; HSetL 0 [x61] 0; HSetL 0 [x62] 0; HToNode 0; HFromDag 0; HFromDag 0;
   HFindN 1 [x61]; HTakeN 1 [x61]; HSwapN 2 [x62] raw_a; HSetL 1 [x69] 1; HEach 1 (fun _ _ => None); HEach 2 (fun _ _ => None); HEach 0 (fun _ _ => None);
   HToNode 1; HToNode 2; HFindN 1 [x61]; HReadNode 0; HReadLink 0; HReadLink 1; HReadLink 2; HReadLink 3].
Definition ending (ops : list hop) : ostate := snd (orun hash8 ops (ostart good_store)).
Definition seen (ops : list hop) (st : ostate) : list obs := fst (orun hash8 ops st).
Definition quietb (bs : list obs) : bool := forallb (fun b => negb (stops b)) bs.
Lemma quietb_ok bs : quietb bs = true -> quiet bs.
Proof. unfold quietb. rewrite forallb_forall. intros H. apply Forall_forall. intros b Hb. apply H in Hb. destruct (stops b); [discriminate|reflexivity]. Qed.
Lemma ending_run ops : orun hash8 ops (ostart good_store) = (seen ops (ostart good_store), ending ops).
Proof. unfold seen, ending. destruct (orun _ _ _). reflexivity. Qed.

(** Observations: neither panics nor missing handles, 22 of them. *)
Lemma two_dirs_case : length (seen two_dirs (ostart good_store)) = 22%nat /\ Forall (fun b => stops b = false /\ b <> SBad) (seen two_dirs (ostart good_store)) /\ In (SErr ENotExist) (seen two_dirs (ostart good_store)).
Proof.
  split; [vm_compute; reflexivity|]. split.
  - apply Forall_forall. intros b Hb. assert (Q : forallb (fun b => negb (stops b) && match b with SBad => false | _ => true end) (seen two_dirs (ostart good_store)) = true) by (vm_compute; reflexivity). rewrite forallb_forall in Q. apply Q, andb_prop in Hb as [H1 H2]. split; [now destruct (stops b)|intros ->; discriminate].
  - vm_compute. tauto.
Qed.

(** Handles of all four kinds; afterwards the directory changes. *)
Definition handles : list hop := [HNewShard 8 None; HMakeLink some_link; HSetL 0 [x61] 0; HEach 0 (fun _ _ => None); HFindN 0 [x61]; HSetL 0 [x63] 0; HTakeN 0 [x63]].
Definition later : list hop := [HSetL 0 [x62] 0; HToNode 0; HTakeN 0 [x61]].
Lemma handles_case : exists bs1 st1 bs2 st2, orun hash8 handles (ostart good_store) = (bs1, st1) /\ quiet bs1 /\ orun hash8 later st1 = (bs2, st2) /\ quiet bs2 /\ Forall (fun b => b <> SBad) bs2 /\
  (exists la, In (la, Made) (o_links st1)) /\ (exists la, In (la, Taken) (o_links st1)) /\ (exists la, In (la, Found [x61]) (o_links st1)) /\ exists la, In (la, Walked) (o_links st1).
Proof.
  exists (seen handles (ostart good_store)), (ending handles), (seen later (ending handles)), (snd (orun hash8 later (ending handles))). split; [apply ending_run|]. split; [apply quietb_ok; vm_compute; reflexivity|].
  split; [unfold seen; destruct (orun hash8 later (ending handles)); reflexivity|]. split; [apply quietb_ok; vm_compute; reflexivity|]. split.
  - apply Forall_forall. intros b Hb ->. revert Hb. vm_compute. intuition discriminate.
  - vm_compute. split; [eexists; left; reflexivity|]. split; [eexists; right; right; right; left; reflexivity|]. split; [eexists; right; right; left; reflexivity|]. eexists. right. left. reflexivity.
Qed.

(** A link seen by ForEachLink under the name "a" has another name after SetLink of "b"; one
    found by Find after ForEachLink. *)
Lemma walked_renamed : exists st1 st2 la l1 l2 bs1 bs2, orun hash8 [HNewShard 8 None; HMakeLink some_link; HSetL 0 [x61] 0; HEach 0 (fun _ _ => None)] (ostart good_store) = (bs1, st1) /\ quiet bs1 /\
  orun hash8 [HSetL 0 [x62] 0] st1 = (bs2, st2) /\ quiet bs2 /\ In (la, Walked) (o_links st1) /\ nth_error (h_links (o_h st1)) la = Some l1 /\ lname l1 = [x61] /\ nth_error (h_links (o_h st2)) la = Some l2 /\ lname l2 <> [x61].
Proof.
  set (ops1 := [HNewShard 8 None; HMakeLink some_link; HSetL 0 [x61] 0; HEach 0 (fun _ _ => None)]). set (ops2 := [HSetL 0 [x62] 0]).
  exists (ending ops1), (snd (orun hash8 ops2 (ending ops1))), 1%nat. do 2 eexists. exists (seen ops1 (ostart good_store)), (seen ops2 (ending ops1)). split; [apply ending_run|]. split; [apply quietb_ok; vm_compute; reflexivity|].
  split; [unfold seen; destruct (orun hash8 ops2 (ending ops1)); reflexivity|]. split; [apply quietb_ok; vm_compute; reflexivity|]. split; [vm_compute; tauto|]. split; [vm_compute; reflexivity|]. split; [reflexivity|]. split; [vm_compute; reflexivity|]. cbn. discriminate.
Qed.
Lemma found_renamed : exists st1 st2 la l1 l2 bs1 bs2, orun hash8 [HNewShard 8 None; HMakeLink some_link; HSetL 0 [x61] 0; HFindN 0 [x61]] (ostart good_store) = (bs1, st1) /\ quiet bs1 /\
  orun hash8 [HEach 0 (fun _ _ => None)] st1 = (bs2, st2) /\ quiet bs2 /\ In (la, Found [x61]) (o_links st1) /\ nth_error (h_links (o_h st1)) la = Some l1 /\ nth_error (h_links (o_h st2)) la = Some l2 /\ lname l1 <> lname l2.
Proof.
  set (ops1 := [HNewShard 8 None; HMakeLink some_link; HSetL 0 [x61] 0; HFindN 0 [x61]]). set (ops2 := [HEach 0 (fun _ _ => None)]).
  exists (ending ops1), (snd (orun hash8 ops2 (ending ops1))), 1%nat. do 2 eexists. exists (seen ops1 (ostart good_store)), (seen ops2 (ending ops1)). split; [apply ending_run|]. split; [apply quietb_ok; vm_compute; reflexivity|].
  split; [unfold seen; destruct (orun hash8 ops2 (ending ops1)); reflexivity|]. split; [apply quietb_ok; vm_compute; reflexivity|]. split; [vm_compute; tauto|]. split; [vm_compute; reflexivity|]. split; [vm_compute; reflexivity|]. cbn. discriminate.
Qed.

(** Callbacks that change the directory they are called for. *)
Definition removing (a : saddr) : hcallback := fun _ la => do l <- get_link la ;; do _ <- hTake hash8 good_store (lname l) a ;; ret tt.
Definition adding (a : saddr) (name : bytes) : hcallback := fun _ la => do _ <- hSetLink hash8 good_store name la a ;; ret tt.
Definition names_of (h : heap) (las : list laddr) : option (list bytes) := option_map (map lname) (reads h las).
Definition abcd : list hop := [HNewShard 256 None; HMakeLink some_link; HSetL 0 [x61] 0; HSetL 0 [x62] 0; HSetL 0 [x63] 0; HSetL 0 [x64] 0].
Definition bcd : list hop := [HNewShard 256 None; HMakeLink some_link; HSetL 0 [x62] 0; HSetL 0 [x63] 0; HSetL 0 [x64] 0].
Lemma removing_case : exists st h2 acc, orun hash8 abcd (ostart good_store) = ([SOk; SOk; SOk; SOk; SOk; SOk], st) /\ o_dirs st = [0%nat] /\
  hForEachLink good_store (removing 0%nat) 0%nat (o_h st, []) = (Err EInvalidChild, (h2, acc)) /\ names_of h2 (rev acc) = Some [[x61]; [x63]].
Proof. exists (ending abcd). do 2 eexists. split; [vm_compute; reflexivity|]. split; [vm_compute; reflexivity|]. split; vm_compute; reflexivity. Qed.
Lemma adding_case : exists st h2 acc, orun hash8 bcd (ostart good_store) = ([SOk; SOk; SOk; SOk; SOk], st) /\ o_dirs st = [0%nat] /\
  hForEachLink good_store (adding 0%nat [x61]) 0%nat (o_h st, []) = (Ok tt, (h2, acc)) /\ names_of h2 (rev acc) = Some [[x62]; [x62]; [x63]].
Proof. exists (ending bcd). do 2 eexists. split; [vm_compute; reflexivity|]. split; [vm_compute; reflexivity|]. split; vm_compute; reflexivity. Qed.
