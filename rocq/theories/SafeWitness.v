(** Malformed files on which the modifier and Append crash. *)
From Verif Require Import Base Pb FSNode Dag Builder Importer Reader Modifier SpecModifier ExactProofs AppendRun.

Definition split1 (b : bytes) : list bytes := [b].
Definition everything : world := mkWorld (fun _ => true) [] 0 (fun _ => true) (fun _ => true).
(** Two block sizes, 2 and 5, for one link. *)
Definition short_links : node := NProto v0prefix [x08; x02; x18; x07; x20; x02; x20; x05] [make_link [] (NRaw rawprefix [x61; x62])].
(** A block of two bytes that says it has 99 (the capacity of a Go slice of two bytes is at
    most 8, so that slicing at 50 panics). *)
Definition short_data : node := NProto v0prefix [x08; x02; x12; x02; x61; x62; x18; x63] [].
Lemma write_panics : exists n r w, NewDagReader w n = Ok r /\ fst (mod_call split1 100 MSync (snd (mod_call split1 100 (MWriteAt [x7a] 3) (NewDagModifier n, w)))) = Panic.
Proof. eexists short_links, _, everything. split; vm_compute; reflexivity. Qed.
Lemma truncate_leaf_panics : exists n r w, NewDagReader w n = Ok r /\ fst (mod_call split1 100 (MTruncate 50) (NewDagModifier n, w)) = Panic.
Proof. eexists short_data, _, everything. split; vm_compute; reflexivity. Qed.
Lemma truncate_node_panics : exists n r w, NewDagReader w n = Ok r /\ node_links n <> [] /\ fst (mod_call split1 100 (MTruncate 4) (NewDagModifier n, w)) = Panic.
Proof. eexists short_links, _, everything. split; [vm_compute; reflexivity|]. split; [discriminate|vm_compute; reflexivity]. Qed.
Lemma append_panics : exists n r w, NewDagReader w n = Ok r /\ fst (fst (trickle_append 9 9 (limit 1) false [EvData [x61]] n w)) = Panic.
Proof. eexists short_links, _, everything. split; vm_compute; reflexivity. Qed.
