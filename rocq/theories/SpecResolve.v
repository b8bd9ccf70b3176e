(** Specification of path resolution: walking along names from directory to directory. *)
From Verif Require Import Base Dag SpecHamt Directory DirExec.

Section Spec.
  Variables (hash : bytes -> bytes) (width : Z).

  (** [nd] is the node that GetNode returned for a directory with the contents [d], some
      time before [w]. *)
  Definition saved (b : option prefix) (w : world) (nd : node) (d : dir) : Prop :=
    exists x0 w0 x1 w1 nd0, dreached hash width b (x0, w0) d /\ dGetNode (x0, w0) = (Ok nd0, (x1, w1)) /\ nd = seal nd0 /\ wext w1 w.

  (** The names lead from [nd] to [m], through directories that have been saved and
      entries that can be fetched. *)
  Inductive leads (w : world) : node -> list bytes -> node -> Prop :=
  | leads_here n : leads w n [] n
  | leads_to b nd d (k : bytes) e (rest : list bytes) m : saved b w nd d -> k <> [] -> d k = Some e -> dserv_get w (snd e) = Ok (snd e) -> leads w (snd e) rest m -> leads w nd (k :: rest) m.
End Spec.
