(** Lemmas about nodes, links and the DAG service. *)
From Verif Require Import Base Pb FSNode Dag.

(** Induction with a hypothesis for every linked node. *)
Lemma node_ind' (P : node -> Prop) :
  (forall p d, P (NRaw p d)) ->
  (forall p d ls, Forall (fun l => P (lto l)) ls -> P (NProto p d ls)) ->
  forall n, P n.
Proof.
  intros Hr Hp. fix IH 1. intros [p d|p d ls].
  - apply Hr.
  - apply Hp. induction ls as [|l ls IHl]; constructor; [apply IH|apply IHl].
Qed.

Lemma bytes_eqb_eq a : forall b, bytes_eqb a b = true <-> a = b.
Proof.
  induction a as [|x a IH]; intros [|y b]; cbn; try (split; congruence).
  rewrite Bool.andb_true_iff, IH. split.
  - intros [H1 H2]. apply Byte.byte_dec_bl in H1. congruence.
  - intros H. injection H as -> ->. split; [|reflexivity]. apply Byte.byte_dec_lb. reflexivity.
Qed.
Lemma bytes_eqb_refl a : bytes_eqb a a = true.
Proof. now apply bytes_eqb_eq. Qed.

Lemma prefix_eqb_eq p q : prefix_eqb p q = true <-> p = q.
Proof.
  destruct p, q. unfold prefix_eqb. cbn. rewrite !Bool.andb_true_iff, !Z.eqb_eq.
  split; [intros [[[-> ->] ->] ->]; reflexivity|intros H; injection H as -> -> -> ->; auto].
Qed.

Lemma node_eqb_eq a : forall b, node_eqb a b = true <-> a = b.
Proof.
  induction a as [p d|p d ls IH] using node_ind'; intros [q e|q e ms]; cbn; try (split; congruence).
  - rewrite Bool.andb_true_iff, prefix_eqb_eq, bytes_eqb_eq. split; [intros [-> ->]; reflexivity|intros H; injection H as -> ->; auto].
  - rewrite !Bool.andb_true_iff, prefix_eqb_eq, bytes_eqb_eq.
    assert (H : (fix go (ls ms : list (plink node)) {struct ls} : bool :=
         match ls, ms with
         | [], [] => true
         | l :: ls', m :: ms' =>
             bytes_eqb (lname l) (lname m) && (lsize l =? lsize m)
             && node_eqb (lto l) (lto m) && go ls' ms'
         | _, _ => false
         end) ls ms = true <-> ls = ms).
    { clear - IH. revert ms. induction IH as [|l ls Hl HF IHl]; intros [|m ms]; try (split; congruence).
      rewrite !Bool.andb_true_iff, IHl, Hl, bytes_eqb_eq, Z.eqb_eq. destruct l, m; cbn. split.
      - intros [[[-> ->] ->] ->]. reflexivity.
      - intros H. injection H as -> -> -> ->. auto. }
    rewrite H. split; [intros [[-> ->] ->]; reflexivity|intros E; injection E as -> -> ->; auto].
Qed.
Lemma node_eqb_refl a : node_eqb a a = true.
Proof. now apply node_eqb_eq. Qed.

Lemma stored_added w n : In n (map fst (w_added w)) -> stored w n = true.
Proof.
  intros H. unfold stored. apply Bool.orb_true_iff. right. apply existsb_exists.
  apply in_map_iff in H as (e & <- & H). exists e. split; [assumption|]. apply node_eqb_refl.
Qed.
Lemma stored_iff w n : stored w n = true <-> w_has w n = true \/ In n (map fst (w_added w)).
Proof.
  unfold stored. rewrite Bool.orb_true_iff, existsb_exists. split.
  - intros [H|(e & H & E)]; [auto|]. right. apply node_eqb_eq in E. subst n. now apply in_map.
  - intros [H|H]; [auto|]. right. apply in_map_iff in H as (e & <- & H). exists e. split; [assumption|]. apply node_eqb_refl.
Qed.

(** ** Link order *)

Definition unnamed {T} (l : plink T) : Prop := lname l = [].

Lemma lsort_unnamed {T} (ls : list (plink T)) : Forall unnamed ls -> lsort ls = ls.
Proof.
  induction 1 as [|l ls Hl H IH]; [reflexivity|]. cbn [lsort]. rewrite IH.
  destruct ls as [|m ms]; [reflexivity|]. cbn [linsert].
  inversion H as [|? ? Hm _]; subst. unfold unnamed in *. rewrite Hl, Hm. reflexivity.
Qed.

Lemma seal_unnamed n : Forall unnamed (node_links n) -> seal n = n.
Proof. destruct n as [p d|p d ls]; cbn; intros H; [reflexivity|]. now rewrite lsort_unnamed. Qed.

Lemma node_prefix_seal n : node_prefix (seal n) = node_prefix n.
Proof. now destruct n. Qed.
