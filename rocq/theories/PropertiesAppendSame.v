(** Property C99. *)
From Verif Require Import Base Pb FSNode Dag Builder Trickle Importer AppendRun AppendSame AppendBegun PropertiesAppend.

(** C99: if all chunks fit in the direct leaves and one more node of leaves, importing the
    first part and appending the second gives the root of the import of everything,
    wherever the chunks are divided and whatever the stores. (Missing for the full claim:
    more chunks, for which it is false.) *)
Theorem C99_append_import_partial : forall f1 f2 rf f3 dbp fi1 fi2 fi3 a b w1 w2 w3 base base' r r' w1' w2' w3',
  1 <= pr_maxlinks dbp -> zlen a + zlen b <= 2 * pr_maxlinks dbp ->
  trickle_import f1 dbp fi1 (map EvData a) w1 = (Ok base, w1') ->
  trickle_append f2 rf dbp fi2 (map EvData b) base w2 = (Ok r, base', w2') ->
  trickle_import f3 dbp fi3 (map EvData (a ++ b)) w3 = (Ok r', w3') -> r = r'.
Proof. exact app_same. Qed.
Print Assumptions C99_append_import_partial.

(** If the first part fits in the direct leaves and there are more chunks in all, the
    roots always differ: Append never makes the sub-graphs of depth one. *)
Theorem C99_append_import_differs : forall f1 f2 rf f3 dbp fi1 fi2 fi3 a b w1 w2 w3 base base' r r' w1' w2' w3',
  1 <= pr_maxlinks dbp -> zlen a <= pr_maxlinks dbp -> 2 * pr_maxlinks dbp < zlen a + zlen b ->
  trickle_import f1 dbp fi1 (map EvData a) w1 = (Ok base, w1') ->
  trickle_append f2 rf dbp fi2 (map EvData b) base w2 = (Ok r, base', w2') ->
  trickle_import f3 dbp fi3 (map EvData (a ++ b)) w3 = (Ok r', w3') -> r <> r'.
Proof. exact app_differs. Qed.
Print Assumptions C99_append_import_differs.

(** If between one and three sub-graphs of depth one are begun or full, the roots are the
    same, however much is appended. *)
Theorem C99_append_import_begun : forall f1 f2 rf f3 dbp fi1 fi2 fi3 a b w1 w2 w3 base base' r r' w1' w2' w3',
  1 <= pr_maxlinks dbp -> pr_maxlinks dbp < zlen a <= 4 * pr_maxlinks dbp ->
  trickle_import f1 dbp fi1 (map EvData a) w1 = (Ok base, w1') ->
  trickle_append f2 rf dbp fi2 (map EvData b) base w2 = (Ok r, base', w2') ->
  trickle_import f3 dbp fi3 (map EvData (a ++ b)) w3 = (Ok r', w3') -> r = r'.
Proof. exact app_begun. Qed.
Print Assumptions C99_append_import_begun.

(** So for files of up to four times the link limit it is known exactly when they are. *)
Theorem C99_append_import_exact : forall f1 f2 rf f3 dbp fi1 fi2 fi3 a b w1 w2 w3 base base' r r' w1' w2' w3',
  1 <= pr_maxlinks dbp -> zlen a <= 4 * pr_maxlinks dbp ->
  trickle_import f1 dbp fi1 (map EvData a) w1 = (Ok base, w1') ->
  trickle_append f2 rf dbp fi2 (map EvData b) base w2 = (Ok r, base', w2') ->
  trickle_import f3 dbp fi3 (map EvData (a ++ b)) w3 = (Ok r', w3') ->
  (r = r' <-> pr_maxlinks dbp < zlen a \/ zlen a + zlen b <= 2 * pr_maxlinks dbp).
Proof. exact app_exact. Qed.
Print Assumptions C99_append_import_exact.

(** Three runs with [n] chunks in the file and the rest of ten appended. *)
Definition piece (n m : nat) : list bytes := firstn m (skipn n ten).
Definition base_run (n : nat) := trickle_import 20 (limit 2) false (map EvData (piece 0 n)) astore.
Definition append_run (n m : nat) := trickle_append 20 20 (limit 2) false (map EvData (piece n m)) (ok_node (fst (base_run n))) (snd (base_run n)).
Definition whole_run (n m : nat) := trickle_import 20 (limit 2) false (map EvData (piece 0 n ++ piece n m)) astore.

(** A case of each theorem: one chunk and three more; one chunk and four more; and three
    chunks (the node of leaves begun) and one more, or seven more; eight chunks (three nodes
    of leaves) and two more. *)
Definition three_ok (n m : nat) : bool :=
  match fst (base_run n), fst (fst (append_run n m)), fst (whole_run n m) with Ok _, Ok _, Ok _ => true | _, _, _ => false end.
Example C99_cases : three_ok 1 3 = true /\ three_ok 1 4 = true /\ three_ok 3 1 = true /\ three_ok 3 7 = true /\ three_ok 8 2 = true /\
  zlen (piece 0 3) = 3 /\ zlen (piece 3 7) = 7 /\ zlen (piece 0 8) = 8 /\ pr_maxlinks (limit 2) = 2 /\
  zlen (piece 0 1) + zlen (piece 1 3) = 4 /\ zlen (piece 0 1) + zlen (piece 1 4) = 5 /\ zlen (piece 0 3) + zlen (piece 3 1) = 4.
Proof. vm_compute. repeat split. Qed.

(** The full claim is false. *)
Theorem C99_append_import_refuted : exists dbp a b w base w1 r w2 r' w3,
  1 <= pr_maxlinks dbp /\
  trickle_import 20 dbp false (map EvData a) w = (Ok base, w1) /\
  trickle_append 20 20 dbp false (map EvData b) base w1 = (Ok r, r, w2) /\
  trickle_import 20 dbp false (map EvData (a ++ b)) w = (Ok r', w3) /\ r <> r'.
Proof. exact app_refuted. Qed.
Print Assumptions C99_append_import_refuted.
