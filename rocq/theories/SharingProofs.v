(** Saved sharded directories that differ in some names share all shards off the paths of these names. *)
From Coq Require Import Sorting.Sorted Sorting.Permutation.
From Verif Require Import Base Pb PbProofs FSNode FSNodeProofs Dag DagProofs Builder HashBits Bitfield SpecHash HashProofs Hamt SpecHamt HamtExec HamtRep HamtNode HamtRun HamtFacts SpecPath PathProofs.

Section Share.
  Variables (hash : bytes -> bytes) (L lg W : Z) (P : prefix -> Prop).
  Hypothesis Hlg : 3 <= lg <= 10.
  Hypothesis HW : Logtwo W = Ok lg.
  Hypothesis Hhash : forall k, 8 * zlen (hash k) = L.
  Hypothesis HP : forall p, P p -> p = proto_prefix (Some p).
  Hypothesis HPP : forall p q, P p -> P q -> p = q.
  Notation wf := (wf hash L lg).
  Notation wfk := (wfk hash L lg).
  Notation ser := (ser W P).
  Notation slot_of := (slot_of hash lg).
  Notation pad := (pad W).
  Notation onp := (on_path hash W).

  Lemma entry_key k e t : In (k, e) (entries t) -> In k (keys t).
  Proof. intros H. unfold keys. apply in_map_iff. exists (k, e). auto. Qed.
  Lemma entryk_key k e kids : In (k, e) (entriesk kids) -> In k (keysk kids).
  Proof. intros H. unfold keysk. apply in_map_iff. exists (k, e). auto. Qed.
  Lemma entry_slot c pre i t post k e : wfk c (pre ++ (i, t) :: post) -> slot_of k c = i ->
    (In (k, e) (entriesk (pre ++ (i, t) :: post)) <-> In (k, e) (entries t)).
  Proof.
    intros Hw Hi. destruct (wfk_other hash L lg W Hlg HW Hhash _ _ _ _ _ k Hw Hi) as [N1 N2]. rewrite entriesk_app, entriesk_cons, !in_app_iff.
    split; [|tauto]. intros [H|[H|H]]; [now apply entryk_key in H|exact H|now apply entryk_key in H].
  Qed.
  Lemma slot_at c kids k : wfk c kids -> In k (keysk kids) -> exists pre t post, kids = pre ++ (slot_of k c, t) :: post.
  Proof. intros Hw Hk. apply (split_slot hash L lg c); [exact Hw|]. now apply (wfk_slot hash L lg). Qed.
  Lemma link_at U c pre i kk post ls : wfk c (pre ++ (i, Branch kk) :: post) -> Forall2 (ser_link W P U) (pre ++ (i, Branch kk) :: post) ls ->
    exists l, In l ls /\ slot_link W l i /\ ser U (Branch kk) (lto l).
  Proof.
    intros Hw HF. destruct (wfk_mid hash L lg W Hlg HW Hhash _ _ _ _ _ Hw) as (_ & _ & _ & _ & R). apply forall2_split in HF as (la & l & lb & -> & _ & _ & (A1 & _ & A3) & _).
    exists l. split; [apply in_app_iff; right; now left|]. split; [|exact A3]. cbn [fst snd tkey] in A1. rewrite app_nil_r in A1.
    now apply (slot_link_hex lg W Hlg HW l i R).
  Qed.
  Lemma ser_proto U kids nd : ser U (Branch kids) nd -> exists p dt ls, nd = NProto p dt ls /\ Forall2 (ser_link W P U) kids ls.
  Proof. intros H. apply (ser_branch lg W P Hlg) in H as (p & ls & -> & _ & _ & HF). eauto. Qed.

  (** A shard on some path has two names on whose paths it is. *)
  Lemma path_keys U k c nd m : onp k c nd m -> forall kids, wfk c kids -> ser U (Branch kids) nd ->
    exists k1 k2, k1 <> k2 /\ In k1 (keysk kids) /\ In k2 (keysk kids) /\ onp k1 c nd m /\ onp k2 c nd m.
  Proof.
    destruct (pad_digits lg W Hlg HW) as [_ Elg].
    induction 1 as [c nd l Hl Hs|c nd l m Hl Hs _ IH]; intros kids Hw Hser;
      destruct (ser_proto _ _ _ Hser) as (p & dt & ls & -> & HF); destruct (slot_kid hash L lg W P Hlg HW Hhash HP U c kids p dt ls l k Hw HF Hl Hs) as (pre & kk & post & la & lb & -> & -> & _ & Hk & _);
      destruct (wfk_mid hash L lg W Hlg HW Hhash _ _ _ _ _ Hw) as (K1 & Wt & _ & _ & R); apply (wf_branch hash L lg Hlg) in Wt as [Wn Wk];
      assert (Sl : forall k1, In k1 (keysk kk) -> slot_link W l (bits_at (hash k1) c (Z.log2 W)))
        by (intros k1 Hk1; specialize (K1 k1 Hk1); rewrite Elg in *; unfold HamtRep.slot_of in K1; now rewrite K1);
      assert (In1 : forall k1, In k1 (keysk kk) -> In k1 (keysk (pre ++ (slot_of k c, Branch kk) :: post)))
        by (intros k1 Hk1; rewrite keysk_app, keysk_cons, !in_app_iff; right; left; exact Hk1).
    - pose proof (wfk_nodup hash L lg W Hlg HW Hhash _ _ Wk) as N. unfold keysk in N, Sl, In1. rewrite <- (map_length fst) in Wn. destruct (map fst (entriesk kk)) as [|k1 [|k2 r]]; try (cbn in Wn; lia).
      exists k1, k2. split; [intros ->; inversion N as [|? ? N1 _]; apply N1; now left|]. split; [apply In1; now left|]. split; [apply In1; right; now left|].
      split; apply path_here; auto; apply Sl; [now left|right; now left].
    - destruct (IH kk) as (k1 & k2 & D & I1 & I2 & O1 & O2); [rewrite Elg; exact Wk|exact Hk|]. exists k1, k2. split; [exact D|]. split; [now apply In1|]. split; [now apply In1|].
      split; (eapply path_down; [exact Hl|apply Sl; assumption|assumption]).
  Qed.

  (** [K]: the names in which the directories may differ. *)
  Lemma shared U V k c nd m : onp k c nd m -> forall (K : bytes -> Prop) kids kids' nd', wfk c kids -> wfk c kids' -> ser U (Branch kids) nd -> ser V (Branch kids') nd' ->
    (forall k1 e, ~ K k1 -> (In (k1, e) (entriesk kids) <-> In (k1, e) (entriesk kids'))) -> (forall k1, K k1 -> ~ onp k1 c nd m) -> onp k c nd' m.
  Proof.
    destruct (pad_digits lg W Hlg HW) as [_ Elg].
    induction 1 as [c nd l Hl Hs|c nd l m Hl Hs Hon IH]; intros K kids kids' nd' Hw Hw' Hser Hser' HR HK;
      destruct (ser_proto _ _ _ Hser) as (p & dt & ls & -> & HF); destruct (ser_proto _ _ _ Hser') as (p' & dt' & ls' & -> & HF');
      destruct (slot_kid hash L lg W P Hlg HW Hhash HP U c kids p dt ls l k Hw HF Hl Hs) as (pre & kk & post & la & lb & -> & -> & _ & Hk & _);
      destruct (wfk_mid hash L lg W Hlg HW Hhash _ _ _ _ _ Hw) as (K1 & Wt & _ & _ & R); pose proof Wt as Wt0; apply (wf_branch hash L lg Hlg) in Wt as [Wn Wk];
      assert (Sl : forall k1 l1, slot_of k1 c = slot_of k c -> slot_link W l1 (slot_of k c) -> slot_link W l1 (bits_at (hash k1) c (Z.log2 W)))
        by (intros k1 l1 E1 H1; rewrite Elg; unfold HamtRep.slot_of in E1, H1; now rewrite E1);
      assert (Hs0 : slot_link W l (slot_of k c)) by (rewrite Elg in Hs; exact Hs).
    - assert (NK : forall k1, slot_of k1 c = slot_of k c -> ~ K k1) by (intros k1 E1 H1; apply (HK k1 H1); apply path_here; [exact Hl|now apply Sl]).
      destruct (wf_nonempty hash L lg Hlg _ _ Wt0) as [a Ha]. pose proof (K1 a Ha) as Sa. unfold keys in Ha. apply in_map_iff in Ha as ([a' e] & <- & Ha). cbn [fst] in *.
      assert (Ha' : In a' (keysk kids')) by (apply (entryk_key a' e); apply HR; [now apply NK|]; now apply (entry_slot c)).
      destruct (slot_at c kids' a' Hw' Ha') as (pre' & t' & post' & ->). rewrite Sa in *.
      destruct (wfk_mid hash L lg W Hlg HW Hhash _ _ _ _ _ Hw') as (K1' & Wt' & _ & _ & _).
      assert (Et : Branch kk = t').
      { apply (wf_unique hash L lg W Hlg HW Hhash _ (c + lg)); [exact Wt0|exact Wt'|]. intros [k1 e1]. split; intros H1.
        - pose proof (K1 k1 (entry_key _ _ _ H1)) as S1. apply (entry_slot c pre' _ t' post' k1 e1 Hw' S1). apply HR; [now apply NK|]. now apply (entry_slot c).
        - pose proof (K1' k1 (entry_key _ _ _ H1)) as S1. apply (entry_slot c pre _ (Branch kk) post k1 e1 Hw S1). apply HR; [now apply NK|]. now apply (entry_slot c). }
      subst t'. destruct (link_at V c pre' _ kk post' ls' Hw' HF') as (l' & Hl' & S' & Hk'). rewrite (ser_unique lg W P Hlg _ _ _ HPP _ _ Hk Hk').
      apply path_here; [exact Hl'|now apply Sl].
    - assert (Hon' : onp k (c + lg) (lto l) m) by (rewrite <- Elg; exact Hon).
      destruct (path_keys U k _ _ _ Hon' kk Wk Hk) as (k1 & k2 & D & I1 & I2 & O1 & O2).
      assert (Pers : forall x, In x (keysk kk) -> onp x (c + lg) (lto l) m -> slot_of x c = slot_of k c /\ exists e, In (x, e) (entriesk kids')).
      { intros x Hx Ox. pose proof (K1 x Hx) as Sx. split; [exact Sx|]. unfold keysk in Hx. apply in_map_iff in Hx as ([x' e] & <- & Hx). cbn [fst] in *. exists e. apply HR; [|now apply (entry_slot c)].
        intros H. apply (HK x' H). eapply path_down; [exact Hl|now apply Sl|rewrite Elg; exact Ox]. }
      destruct (Pers k1 I1 O1) as (S1 & e1 & E1). destruct (Pers k2 I2 O2) as (S2 & e2 & E2).
      destruct (slot_at c kids' k1 Hw' (entryk_key _ _ _ E1)) as (pre' & t' & post' & ->). rewrite S1 in *.
      destruct (wfk_mid hash L lg W Hlg HW Hhash _ _ _ _ _ Hw') as (K1' & Wt' & _ & _ & _).
      apply (entry_slot c _ _ _ _ _ _ Hw' S1) in E1. apply (entry_slot c _ _ _ _ _ _ Hw' S2) in E2.
      destruct t' as [kx vx|kk']; [cbn in E1, E2; destruct E1 as [[= <- _]|[]]; destruct E2 as [[= <- _]|[]]; congruence|].
      apply (wf_branch hash L lg Hlg) in Wt' as [_ Wk'].
      destruct (link_at V c pre' _ kk' post' ls' Hw' HF') as (l' & Hl' & S' & Hk').
      eapply path_down; [exact Hl'|now apply Sl|]. apply (IH (fun x => K x /\ slot_of x c = slot_of k c) kk kk' (lto l')); rewrite ?Elg; auto.
      + intros x e NKx. destruct (Z.eq_dec (slot_of x c) (slot_of k c)) as [Sx|Sx].
        * assert (NX : ~ K x) by tauto. specialize (HR x e NX). rewrite (entry_slot c _ _ _ _ _ _ Hw Sx), (entry_slot c _ _ _ _ _ _ Hw' Sx) in HR. exact HR.
        * split; intros H; exfalso; apply Sx; [apply K1|apply K1']; exact (entryk_key _ _ _ H).
      + intros x [Kx Sx] Ox. apply (HK x Kx). eapply path_down; [exact Hl|now apply Sl|rewrite Elg; exact Ox].
  Qed.
End Share.
