From Verif Require Import Base Pb FSNode Dag Builder Balanced Trickle Importer Reader Modifier SpecFile SpecAppend SpecModifier SpecShare SpecPieces
  ReaderWitness ModifierRun ModifierFacts FlushProofs HoleProofs OnwardProofs.

(** C114: a trickle import of [c] to which [b] is written at the end has the root of the import of
    both exactly if the chunker cuts at the end of [c]; as long as there are not more chunks in
    all than two times the link limit, or more chunks in [c] than the limit and at most four
    times as many. *)
Theorem C114_write_import : forall split wbsize c b n w n1 s1 f fi v n2 v', chunker_ok split -> made (split c) n -> b <> [] -> zlen c + zlen b < 9223372036854775808 ->
  zlen (split c) + zlen (split b) <= 2 * DefaultLinksPerBlock \/ DefaultLinksPerBlock < zlen (split c) <= 4 * DefaultLinksPerBlock ->
  write_back split wbsize b (zlen c) n w = (Ok n1, s1) -> (length (split (c ++ b)) < f)%nat -> trickle_import f (grow_params n) fi (map EvData (split (c ++ b))) v = (Ok n2, v') ->
  (n1 = n2 <-> split c ++ split b = split (c ++ b)).
Proof. exact onward. Qed.
Print Assumptions C114_write_import.

(** With chunks of a fixed size: if that divides the size of the file. *)
Theorem C114_write_import_fixed : forall s split wbsize c b n w n1 s1 f fi v n2 v', 0 < s <= BlockSizeLimit -> fixed_size s split -> made (split c) n -> b <> [] -> zlen c + zlen b < 9223372036854775808 ->
  zlen (split c) + zlen (split b) <= 2 * DefaultLinksPerBlock \/ DefaultLinksPerBlock < zlen (split c) <= 4 * DefaultLinksPerBlock ->
  write_back split wbsize b (zlen c) n w = (Ok n1, s1) -> (length (split (c ++ b)) < f)%nat -> trickle_import f (grow_params n) fi (map EvData (split (c ++ b))) v = (Ok n2, v') ->
  (n1 = n2 <-> zlen c mod s = 0).
Proof. exact onward_fixed. Qed.
Print Assumptions C114_write_import_fixed.

(** If much is written to a small file, the roots differ even where the chunks are the same. *)
Theorem C114_much_differs : forall split wbsize c b n w n1 s1 f fi v n2 v', chunker_ok split -> made (split c) n -> b <> [] -> zlen c + zlen b < 9223372036854775808 ->
  zlen (split c) <= DefaultLinksPerBlock -> 2 * DefaultLinksPerBlock < zlen (split c) + zlen (split b) -> split c ++ split b = split (c ++ b) ->
  write_back split wbsize b (zlen c) n w = (Ok n1, s1) -> trickle_import f (grow_params n) fi (map EvData (split (c ++ b))) v = (Ok n2, v') -> n1 <> n2.
Proof. exact onward_long. Qed.
Print Assumptions C114_much_differs.

(** "ab", "abc" and 200 bytes in pieces of two or one, with two or 400 bytes written, in two formats. *)
Example C114_cases : forall p, In p [mkPrefix 0 112 18 32; mkPrefix 1 112 18 32] ->
  fixed_size 2 (chop 2) /\ fixed_size 1 (chop 1) /\ chunker_ok (chop 2) /\ chunker_ok (chop 1) /\
  (forall s k j, In (s, (k, j)) [(2, (2, 2)); (2, (3, 2)); (1, (200, 2)); (1, (200, 400)); (1, (2, 400))]%nat -> let split := chop (Z.of_nat s) in
     made (split (repeat Byte.x61 k)) (import_of p (split (repeat Byte.x61 k))) /\
     (exists n1 s1, write_back split 2097152 (repeat Byte.x62 j) (Z.of_nat k) (import_of p (split (repeat Byte.x61 k))) full = (Ok n1, s1)) /\
     (exists n2 v', trickle_import 999 (grow_params (import_of p (split (repeat Byte.x61 k)))) false (map EvData (split (repeat Byte.x61 k ++ repeat Byte.x62 j))) full = (Ok n2, v'))) /\
  zlen (chop 2 (repeat Byte.x61 3)) + zlen (chop 2 (repeat Byte.x62 2)) <= 2 * DefaultLinksPerBlock /\
  DefaultLinksPerBlock < zlen (chop 1 (repeat Byte.x61 200)) <= 4 * DefaultLinksPerBlock /\
  zlen (chop 1 (repeat Byte.x61 2)) <= DefaultLinksPerBlock /\ 2 * DefaultLinksPerBlock < zlen (chop 1 (repeat Byte.x61 2)) + zlen (chop 1 (repeat Byte.x62 400)) /\
  chop 1 (repeat Byte.x61 2) ++ chop 1 (repeat Byte.x62 400) = chop 1 (repeat Byte.x61 2 ++ repeat Byte.x62 400).
Proof. exact onward_cases. Qed.
