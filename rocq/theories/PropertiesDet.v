(** Property C94. *)
From Verif Require Import Base Pb FSNode Dag Builder Balanced Trickle Importer SpecFile SpecAppend AppendRun PropertiesAppend DetProofs StoreProofs.

(** C94: the root depends on the chunks and the parameters only: not on what the store
    holds already, nor on which blocks it can deliver, nor on earlier calls. *)
Theorem C94_balanced_determined : forall f1 f2 dbp i1 i2 spl w1 w2 r1 r2 w1' w2',
  balanced_import f1 dbp i1 spl w1 = (Ok r1, w1') -> balanced_import f2 dbp i2 spl w2 = (Ok r2, w2') -> r1 = r2.
Proof. exact balanced_det. Qed.
Print Assumptions C94_balanced_determined.
Theorem C94_trickle_determined : forall f1 f2 dbp i1 i2 spl w1 w2 r1 r2 w1' w2',
  trickle_import f1 dbp i1 spl w1 = (Ok r1, w1') -> trickle_import f2 dbp i2 spl w2 = (Ok r2, w2') -> r1 = r2.
Proof. exact trickle_det. Qed.
Print Assumptions C94_trickle_determined.
Theorem C94_append_determined : forall f1 f2 g1 g2 dbp i1 i2 spl base w1 w2 r1 r2 b1 b2 w1' w2',
  trickle_append f1 g1 dbp i1 spl base w1 = (Ok r1, b1, w1') -> trickle_append f2 g2 dbp i2 spl base w2 = (Ok r2, b2, w2') -> r1 = r2.
Proof. exact append_det. Qed.
Print Assumptions C94_append_determined.
(** Different chunks have different roots, whatever layouts and parameters are used (all
    empty files count as one). *)
Theorem C94_injective : forall c1 c2 root,
  (exists fuel dbp fi w w', balanced_import fuel dbp fi (map EvData c1) w = (Ok root, w')) \/
  (exists fuel dbp fi w w', 1 <= pr_maxlinks dbp /\ (length c1 < fuel)%nat /\ trickle_import fuel dbp fi (map EvData c1) w = (Ok root, w')) ->
  (exists fuel dbp fi w w', balanced_import fuel dbp fi (map EvData c2) w = (Ok root, w')) \/
  (exists fuel dbp fi w w', 1 <= pr_maxlinks dbp /\ (length c2 < fuel)%nat /\ trickle_import fuel dbp fi (map EvData c2) w = (Ok root, w')) ->
  c1 = c2 \/ (concat c1 = [] /\ concat c2 = []).
Proof. exact import_injective. Qed.
Print Assumptions C94_injective.

(** Ten chunks imported into an empty store and into one that has the blocks of another
    import; an append to a file with more and with fewer blocks in the store. *)
Definition bal_ten := balanced_import 20 (limit 2) false (map EvData ten) astore.
Example C94_case : fst bal_ten = Ok (ok_node (fst bal_ten)) /\
  fst (balanced_import 15 (limit 2) true (map EvData ten) (snd ten_import)) = Ok (ok_node (fst bal_ten)) /\
  fst (trickle_import 30 (limit 2) false (map EvData ten) (snd bal_ten)) = Ok ten_base /\ fst ten_import = Ok ten_base /\
  length (w_added (snd (trickle_import 30 (limit 2) false (map EvData ten) (snd bal_ten)))) = 36%nat /\
  (exists r, fst (trickle_append 9 9 (limit 2) false (map EvData more) ten_base (snd ten_import)) = (Ok r, r) /\
    fst (trickle_append 8 7 (limit 2) false (map EvData more) ten_base (snd (trickle_import 30 (limit 2) false (map EvData ten) (snd bal_ten)))) = (Ok r, r)) /\
  fst bal_ten <> fst ten_import.
Proof.
  do 5 (split; [vm_compute; reflexivity|]). split; [|vm_compute; discriminate]. eexists. split; vm_compute; reflexivity.
Qed.
