(** What edits of a file do to its chunks. *)
From Verif Require Import Base Dag Builder Modifier SpecAppend ModifierFacts SpecHole.

(** Data written at an offset, or the file cut or extended to a size. *)
Inductive edit := Put (b : bytes) (off : Z) | Cut (size : Z).
Definition possible (e : edit) : Prop :=
  match e with
  | Put b off => b <> [] /\ 0 <= off /\ off + zlen b < 9223372036854775808
  | Cut size => 0 <= size < 9223372036854775808
  end.
(** The edit made with a new modifier, and GetNode (mod/dagmodifier.go:90-119 WriteAt, 494-525
    Truncate, 436-442 GetNode). *)
Definition edit_node (split : bytes -> list bytes) (wbsize : Z) (e : edit) (n : node) (w : world) : res node * mst :=
  match e with
  | Put b off => write_back split wbsize b off n w
  | Cut size => truncate_to split size n w
  end.
(** [n'] comes from [n] by successful edits, each on any store. *)
Inductive edited (split : bytes -> list bytes) (wbsize : Z) : node -> list edit -> node -> Prop :=
| ed_none n : edited split wbsize n [] n
| ed_one n e w n1 s es n' : edit_node split wbsize e n w = (Ok n1, s) -> edited split wbsize n1 es n' -> edited split wbsize n (e :: es) n'.

(** The chunks (those that are not empty) before and after an edit. *)
Inductive chunks_edit (split : bytes -> list bytes) : edit -> list bytes -> list bytes -> Prop :=
| ce_inside b off cs cs' : off + zlen b <= zlen (concat cs) ->
    map zlen cs' = map zlen cs -> concat cs' = ztake off (concat cs) ++ b ++ zdrop (off + zlen b) (concat cs) -> chunks_edit split (Put b off) cs cs'
| ce_over b off cs old : off <= zlen (concat cs) < off + zlen b ->
    map zlen old = map zlen cs -> concat old = ztake off (concat cs) ++ ztake (zlen (concat cs) - off) b ->
    chunks_edit split (Put b off) cs (old ++ solid (split (zdrop (zlen (concat cs) - off) b)))
| ce_past b off cs zs : zlen (concat cs) < off ->
    cut_every 4096 zs -> concat zs = repeat Byte.x00 (Z.to_nat (off - zlen (concat cs))) -> chunks_edit split (Put b off) cs (cs ++ zs ++ solid (split b))
| ce_same cs : chunks_edit split (Cut (zlen (concat cs))) cs cs
| ce_more size cs zs : zlen (concat cs) < size ->
    cut_every 4096 zs -> concat zs = repeat Byte.x00 (Z.to_nat (size - zlen (concat cs))) -> chunks_edit split (Cut size) cs (cs ++ zs)
| ce_less size xs x ys : zlen (concat xs) <= size < zlen (concat xs) + zlen x ->
    chunks_edit split (Cut size) (xs ++ x :: ys) (xs ++ solid [ztake (size - zlen (concat xs)) x]).
Inductive chunks_edits (split : bytes -> list bytes) : list edit -> list bytes -> list bytes -> Prop :=
| ces_none cs : chunks_edits split [] cs cs
| ces_one e es cs cs1 cs' : chunks_edit split e cs cs1 -> chunks_edits split es cs1 cs' -> chunks_edits split (e :: es) cs cs'.

(** The portions [bs] written one after the other, the first one at [off]. *)
Fixpoint at_end (off : Z) (bs : list bytes) : list edit :=
  match bs with
  | [] => []
  | b :: r => Put b off :: at_end (off + zlen b) r
  end.
