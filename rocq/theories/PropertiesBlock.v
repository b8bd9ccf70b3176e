(** C48, in terms of encoded blocks. *)
From Verif Require Import Base Pb FSNode Dag Builder Balanced Importer SpecFile SpecBlock BlockProofs ImportProofs PropertiesImport.

(** C48: wherever link sizes are exact (C48_balanced_tsize, C48_trickle_tsize and the theorems
    about appending and modifying), they are the number of bytes of the encoded blocks below
    the link, for every digest of the right length. *)
Theorem C48_encoded : forall digest, (forall m, zlen (digest m) = Z.max 0 (p_mhlen (node_prefix m))) ->
  forall root, tsizes_exact root -> forall m l, reach root m -> In l (node_links m) -> lsize l = mod64 (zlen (concat (all_blocks digest (lto l)))).
Proof. exact size_exact. Qed.
Print Assumptions C48_encoded.
Example C48_encoded_case : exists root w', balanced_import 5 wrapped false (map EvData five) good_world = (Ok root, w') /\
  map lsize (node_links root) = map (fun l => zlen (concat (all_blocks (fun m => repeat x00 (Z.to_nat (p_mhlen (node_prefix m)))) (lto l)))) (node_links root) /\ 0 < zlen (node_links root).
Proof. eexists _, _. split; [vm_compute; reflexivity|]. vm_compute. split; reflexivity. Qed.
(** The size of a node (ProtoNode.Size, RawNode.Size) is its encoded block and the sizes its
    links record. *)
Theorem C48_node_size : forall digest, (forall m, zlen (digest m) = Z.max 0 (p_mhlen (node_prefix m))) ->
  forall n, node_size n = mod64 (zlen (enc_block digest n) + fold_right Z.add 0 (map lsize (node_links n))).
Proof. intros digest Hd n. rewrite (block_exact digest Hd n). reflexivity. Qed.
Print Assumptions C48_node_size.
