(** Data written in several calls. *)
From Verif Require Import Base Dag Builder Trickle Importer Modifier SpecModifier SpecHole.

(** One Write call for each piece. *)
Fixpoint writes (split : bytes -> list bytes) (wbsize : Z) (ps : list bytes) : M mst unit :=
  match ps with
  | [] => ret tt
  | p :: r => do _ <- mWrite split wbsize p ;; writes split wbsize r
  end.
(** The data waiting in the buffer of the modifier. *)
Definition waiting (m : modifier) : Z := match m_buf m with Some x => zlen x | None => 0 end.
(** A chunker that cuts everything into pieces of [s] bytes, the last one may be shorter.
    (The chunkers "size-..." and the default one, which has s = 262144.) *)
Definition fixed_size (s : Z) (split : bytes -> list bytes) : Prop := forall b, concat (split b) = b /\ cut_every s (split b).

(** The settings a modifier opened on [n] appends with. *)
Definition grow_params (n : node) : params := mkParams DefaultLinksPerBlock (m_raw (NewDagModifier n)) (Some (m_prefix (NewDagModifier n))) false.
(** [n] is the trickle import of [xs] with the settings of a modifier opened on it. *)
Definition made (xs : list bytes) (n : node) : Prop :=
  exists f fi w w', (length xs < f)%nat /\ trickle_import f (grow_params n) fi (map EvData xs) w = (Ok n, w').
