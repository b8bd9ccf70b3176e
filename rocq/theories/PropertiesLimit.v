(** Property C104. *)
From Verif Require Import Base Pb FSNode Dag Builder Balanced Trickle Importer SpecFile AppendRun Modifier SpecModifier ModifierFacts SpecLimit FormatProofs LimitProofs.

(** C104: whatever the chunker returns, no block that an import or Append adds or returns
    holds more than 1 MiB of data, provided that the file appended to has no such block; also
    if the call fails. *)
Theorem C104_limit : forall fuel dbp fi spl w,
  (forall x w', balanced_import fuel dbp fi spl w = (x, w') -> adds_small 1048576 w w' /\ (forall n, x = Ok n -> small 1048576 n)) /\
  (forall x w', trickle_import fuel dbp fi spl w = (x, w') -> adds_small 1048576 w w' /\ (forall n, x = Ok n -> small 1048576 n)) /\
  (forall rfuel base x base' w', small 1048576 base ->
     trickle_append fuel rfuel dbp fi spl base w = (x, base', w') -> adds_small 1048576 w w' /\ (forall n, x = Ok n -> small 1048576 n)).
Proof. exact import_limit. Qed.
Print Assumptions C104_limit.

(** The same of a modifier, whatever is called and however it ends. *)
Theorem C104_modify_limit : forall split wbsize n w ops, small 1048576 n ->
  adds_small 1048576 w (snd (mod_history split wbsize ops (NewDagModifier n, w))) /\
  forall m s', mGetNode split (mod_history split wbsize ops (NewDagModifier n, w)) = (Ok m, s') -> small 1048576 m /\ adds_small 1048576 w (snd s').
Proof. exact history_limit. Qed.
Print Assumptions C104_modify_limit.

(** The blocks are no bigger than the chunks. *)
Theorem C104_balanced : forall L fuel dbp fi spl w x w', 0 <= L -> (forall c, In (EvData c) spl -> fits L c) ->
  balanced_import fuel dbp fi spl w = (x, w') -> adds_small L w w' /\ (forall n, x = Ok n -> small L n).
Proof. exact balanced_small. Qed.
Print Assumptions C104_balanced.
Theorem C104_trickle : forall L fuel dbp fi spl w x w', 0 <= L -> (forall c, In (EvData c) spl -> fits L c) ->
  trickle_import fuel dbp fi spl w = (x, w') -> adds_small L w w' /\ (forall n, x = Ok n -> small L n).
Proof. exact trickle_small. Qed.
Print Assumptions C104_trickle.
Theorem C104_append : forall L fuel rfuel dbp fi spl base w x base' w', 0 <= L -> (forall c, In (EvData c) spl -> fits L c) -> small L base ->
  trickle_append fuel rfuel dbp fi spl base w = (x, base', w') -> adds_small L w w' /\ (forall n, x = Ok n -> small L n).
Proof. exact append_small. Qed.
Print Assumptions C104_append.
Theorem C104_modify : forall L split wbsize n w ops, 4096 <= L -> (forall buf c, In c (split buf) -> fits L c) -> small L n ->
  adds_small L w (snd (mod_history split wbsize ops (NewDagModifier n, w))) /\
  forall m s', mGetNode split (mod_history split wbsize ops (NewDagModifier n, w)) = (Ok m, s') -> small L m /\ adds_small L w (snd s').
Proof. exact history_small. Qed.
Print Assumptions C104_modify.

(** Three chunks imported and appended with either layout and form of leaves, and a file that
    is overwritten, extended and cut: blocks of two bytes exist and are the biggest. *)
Example C104_cases :
  (forall c, In (EvData c) three_chunks -> fits 2 c) /\
  (forall raw, small 2 (made_node raw (Some v1pb)) /\ ~ small 1 (made_node raw (Some v1pb))) /\
  (forall raw, exists n w', balanced_import 9 (params_of raw (Some v1pb)) false three_chunks astore = (Ok n, w')) /\
  (forall raw, exists n w', trickle_import 9 (params_of raw (Some v1pb)) false three_chunks astore = (Ok n, w')) /\
  (forall raw, exists n b' w', trickle_append 9 9 (params_of raw (Some v1pb)) false three_chunks (made_node raw (Some v1pb)) (snd (made raw (Some v1pb))) = (Ok n, b', w')) /\
  (forall raw, (length (w_added (snd (made raw (Some v1pb)))) < length (w_added (snd (after_two raw two_edits))))%nat /\
     exists m s', mGetNode by_two (after_two raw two_edits) = (Ok m, s') /\ small 2 m /\ ~ small 1 m).
Proof.
  split; [intros c [E|[E|[E|[]]]]; injection E as <-; left; discriminate|].
  split; [intros raw; rewrite <- !small_dec; destruct raw; (split; [vm_compute; reflexivity|vm_compute; discriminate])|].
  split; [intros []; eexists _, _; vm_compute; reflexivity|]. split; [intros []; eexists _, _; vm_compute; reflexivity|]. split; [intros []; eexists _, _, _; vm_compute; reflexivity|].
  intros raw. split; [apply Nat.ltb_lt; destruct raw; vm_compute; reflexivity|].
  exists (ok_node (fst (mGetNode by_two (after_two raw two_edits)))), (snd (mGetNode by_two (after_two raw two_edits))).
  split; [destruct raw; vm_compute; reflexivity|]. rewrite <- !small_dec. destruct raw; (split; [vm_compute; reflexivity|vm_compute; discriminate]).
Qed.
Example C104_modify_case : (forall buf c, In c (by_two buf) -> fits 4096 c) /\ small 4096 (made_node true (Some v1pb)).
Proof.
  split; [intros buf c H; destruct (by_two_fits _ _ H) as [X|X]; [left; lia|now right]|]. intros m d Hm Hd.
  assert (X : small 2 (made_node true (Some v1pb))) by (apply small_dec; vm_compute; reflexivity). specialize (X m d Hm Hd). lia.
Qed.

(** Below 4096 bytes a modifier does not keep to the sizes of its chunker: the zeros that
    extend a file come in blocks of 4096. *)
Theorem C104_hole_refuted : exists L split n w ops k s', 0 <= L /\ (forall buf c, In c (split buf) -> fits L c) /\ small L n /\
  mGetNode split (mod_history split 100 ops (NewDagModifier n, w)) = (Ok k, s') /\ ~ small L k.
Proof. exact hole_refuted. Qed.
Print Assumptions C104_hole_refuted.
(** The limit is on the data, not on the block: an import without raw leaves makes a block of
    more than 1 MiB from a chunk of 1 MiB. *)
Theorem C104_block_refuted : exists fuel dbp fi spl w n w', balanced_import fuel dbp fi spl w = (Ok n, w') /\ 1048576 < block_len n.
Proof. exact over_refuted. Qed.
Print Assumptions C104_block_refuted.
