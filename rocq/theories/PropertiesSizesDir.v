(** Property C96: the sizes recorded in the links of directories are true. *)
From Verif Require Import Base Pb FSNode Dag Builder Importer Hamt HamtExec Directory DirExec SpecHamt SpecDir SpecFile SpecSizes
  AppendRun HamtWitness DirWitness PropertiesAppend PropertiesSizes ExactDir.

(** C96: operations on a sharded directory, new or loaded, in any order and with failures of
    the DAG service at any place. If the nodes and links given have exact sizes, then all
    nodes, entries and lists delivered have, and so has the node that Node returns. *)
Theorem C96_shard : forall hash W b s w ops,
  new_dir W b = Ok s \/ (exists m, NewHamtFromDag m = Ok s /\ tsizes_exact m) ->
  Forall exact_hop ops ->
  Forall (fun o => exact_result (o_res o)) (fst (hrun hash ops (s, w))) /\
  forall w1 n w2, Node (fst (snd (hrun hash ops (s, w)))) w1 = (Ok n, w2) -> tsizes_exact n.
Proof. exact shard_sizes. Qed.
Print Assumptions C96_shard.
(** Directories that change between the forms. *)
Theorem C96_directory : forall hash width mayc d w cs h st,
  (exists b, NewDirectory b = Ok d) \/ (exists m, NewDirectoryFromNode m = Ok d /\ tsizes_exact m) ->
  drun hash width mayc (d, w) cs h st -> Forall (fun o => exact_dop (q_op o)) h ->
  Forall (fun o => exact_result (q_res o)) h /\
  forall w1 n st2, dGetNode (fst st, w1) = (Ok n, st2) -> tsizes_exact n.
Proof. exact directory_sizes. Qed.
Print Assumptions C96_directory.
(** So the size of a directory is that of its blocks. *)
Theorem C96_true_size : forall hash width mayc d w cs h st w1 n st2,
  (exists b, NewDirectory b = Ok d) \/ (exists m, NewDirectoryFromNode m = Ok d /\ tsizes_exact m) ->
  drun hash width mayc (d, w) cs h st -> Forall (fun o => exact_dop (q_op o)) h ->
  dGetNode (fst st, w1) = (Ok n, st2) -> node_size n = mod64 (cumulative n).
Proof. exact directory_size. Qed.
Print Assumptions C96_true_size.

(** A file of ten chunks and some small ones in a sharded directory that is saved and
    loaded, while the DAG service refuses some blocks. *)
Definition flaky : world := mkWorld (fun _ => true) [] 0 (fun k => negb (k mod 5 =? 3)%nat) (fun _ => true).
Definition sized_ops : list hop :=
  [HSet na (rawn x01); HSwap nb (rawn x02); HSetLink nlong (make_link nlong (rawn x03)); HNode; HReload; HTake na; HSet [x62] ten_base; HReload; HReload; HEach].
Definition sized : list hobs * (shard * world) := hrun hash8 sized_ops (dir256, flaky).
Example C96_shard_case : new_dir 256 None = Ok dir256 /\ Forall exact_hop sized_ops /\
  map (fun o => match o_res o with Ok _ => true | _ => false end) (fst sized) = [true; true; true; false; false; true; true; true; false; true] /\
  exists n w2, Node (fst (snd sized)) astore = (Ok n, w2) /\ cumulative n = 980.
Proof.
  assert (R : forall x, tsizes_exact (rawn x)) by (intros x; apply lx_ts; intros l []).
  assert (T : tsizes_exact ten_base) by (apply (C95_imports ten_base); right; exact (proj1 C95_case)).
  split; [vm_compute; reflexivity|]. split.
  { unfold sized_ops. apply Forall_cons; [exact (R _)|]. apply Forall_cons; [exact (R _)|].
    apply Forall_cons; [split; [vm_compute; reflexivity|exact (R _)]|]. do 3 (apply Forall_cons; [exact I|]). apply Forall_cons; [exact T|].
    do 3 (apply Forall_cons; [exact I|]). apply Forall_nil. }
  split; [vm_compute; reflexivity|]. eexists _, _. split; [vm_compute; reflexivity|vm_compute; reflexivity].
Qed.
(** A directory that changes to the sharded form and is loaded several times. *)
Definition sized_dops : list (Z * dop) :=
  [(60, DAdd na ra); (60, DReload); (60, DAdd nb rb); (60, DReload); (60, DAdd nlong ra); (60, DReload); (0, DEach); (0, DRemove nlong); (0, DAdd [x62] ten_base); (60, DReload)].
Example C96_directory_case : NewDirectory None = Ok dnew /\
  drun hash8 256 false (dnew, astore) sized_dops (fst (dpath astore sized_dops)) (dstate astore sized_dops) /\
  Forall (fun o => exact_dop (q_op o)) (fst (dpath astore sized_dops)) /\
  exists n st2, dGetNode (fst (dstate astore sized_dops), astore) = (Ok n, st2) /\ cumulative n = 972.
Proof.
  assert (R : forall x, tsizes_exact (rawn x)) by (intros x; apply lx_ts; intros l []).
  assert (T : tsizes_exact ten_base) by (apply (C95_imports ten_base); right; exact (proj1 C95_case)).
  split; [exact dnew_ok|]. split; [apply dpath_run; vm_compute; reflexivity|]. split.
  { apply Forall_map with (f := q_op) (P := exact_dop). replace (map q_op (fst (dpath astore sized_dops))) with (map snd sized_dops) by (vm_compute; reflexivity).
    unfold sized_dops. cbn [map snd]. apply Forall_cons; [exact (R _)|]. apply Forall_cons; [exact I|]. apply Forall_cons; [exact (R _)|].
    apply Forall_cons; [exact I|]. apply Forall_cons; [exact (R _)|]. do 3 (apply Forall_cons; [exact I|]). apply Forall_cons; [exact T|].
    apply Forall_cons; [exact I|]. apply Forall_nil. }
  eexists _, _. split; [vm_compute; reflexivity|vm_compute; reflexivity].
Qed.
