(** When two publications of trees get the same root. *)
From Verif Require Import Base Pb PbProofs FSNode FSNodeProofs Dag DagProofs Builder Balanced Trickle Importer HashBits Bitfield SpecHash HashProofs Hamt SpecHamt HamtExec HamtNode HamtWitness Walk WalkProofs WalkDir WalkWitness HamtAbs Directory SpecDir DirExec DirBasic DirectoryProofs DirFacts DirShape Reader SpecFile SpecReader ReaderRun ReaderProofs ReaderProofs2 DetProofs Resolve SpecResolve ResolveProofs UnixFile UnixFileProofs SpecTree TreeProofs SpecRoots.

(** ** Adding entries never makes a directory smaller *)

Lemma adding_keeps T : forall h d, no_removal h -> NoDup (added_names h) -> (forall k, In k (added_names h) -> d k = None) -> keeps T d h.
Proof.
  induction h as [|o h IH]; intros d Hr Hn Hd; [exact Logic.I|]. inversion Hr as [|? ? H1 H2]; subst. cbn [keeps]. unfold added_names in *. cbn [flat_map] in *. fold (added_names h) in *.
  assert (Hsame : deffect d o = d -> NoDup (added_names h) -> (forall k, In k (added_names h) -> d k = None) -> (forall z z', has_size d z -> has_size (deffect d o) z' -> T <= z -> T <= z') /\ keeps T (deffect d o) h).
  { intros E N D. rewrite E. split; [|now apply IH]. intros z z' Hz Hz'. pose proof (size_unique _ _ _ Hz Hz'). lia. }
  unfold deffect in *. destruct (q_res o) as [v|e| |]; try (apply Hsame; auto; fail). destruct (q_op o) as [k m|k| | | | |] eqn:Eo; try contradiction; try (apply Hsame; auto; fail).
  cbn [app] in Hn, Hd. inversion Hn as [|? ? N1 N2]; subst. split.
  - intros z z' Hz Hz' Hle. pose proof (has_size_put d z k (Some (node_entry m)) Hz) as Hp. rewrite (size_unique _ _ _ Hz' Hp). rewrite (Hd k) by now left. cbn [osize]. pose proof (osize_nonneg k (Some (node_entry m))) as Ho. cbn [osize] in Ho. lia.
  - apply IH; auto. intros k' Hk'. unfold dput. destruct (bytes_eqb k' k) eqn:E; [apply bytes_eqb_eq in E; subst; contradiction|]. apply Hd. now right.
Qed.

Lemma adding_keeps_new : forall T h, no_removal h -> NoDup (added_names h) -> keeps T dempty h.
Proof. intros T h H1 H2. apply adding_keeps; auto. Qed.

(** ** The same tree gets the same root *)

Section Same.
  Variables (hash : bytes -> bytes) (n : nat) (W : Z).
  Hypothesis Hn : (2 <= n)%nat.
  Hypothesis Hh : forall k, length (hash k) = n.
  Hypothesis Hv : valid_width W.
  Section Fixed.
    Variables (trickle : bool) (dbp : params) (split : bytes -> list bytes) (lp : prefix) (b : option prefix) (T : Z).
    Hypothesis HT : 0 < T.
    Notation ingests := (ingests hash W trickle dbp split lp b T).
    Notation ingests_all := (ingests_all hash W trickle dbp split lp b T).

    Scheme ing_mut := Induction for SpecRoots.ingests Sort Prop
    with ing_all_mut := Induction for SpecRoots.ingests_all Sort Prop.
    Combined Scheme ing_ind2 from ing_mut, ing_all_mut.

    (** How a publication must have been made. *)
    Definition made_by (t : tree) (nd : node) : Prop :=
      match t with
      | TFile content => exists fuel fi w w', if trickle then trickle_import fuel dbp fi (map EvData (split content)) w = (Ok nd, w') else balanced_import fuel dbp fi (map EvData (split content)) w = (Ok nd, w')
      | TLink target => exists data, SymlinkData target = Ok data /\ nd = NProto lp data []
      | TDir kids => exists nodes w w1 d0 cs h x1 w2 s nd0, ingests_all kids w nodes w1 /\ NewDirectory b = Ok d0 /\ named_dops (map snd cs) /\ Forall (fun c => fst c = T) cs /\ drun hash W false (d0, w1) cs h (x1, w2) /\ keeps T dempty h /\
          (forall k, dcontents dempty h k = option_map node_entry (assoc k nodes)) /\ dGetNode (x1, w2) = (Ok nd0, s) /\ nd = seal nd0
      end.
    Lemma ing_made t w nd w' : ingests t w nd w' -> made_by t nd.
    Proof using.
      induction 1; cbn [made_by].
      - subst. do 4 eexists. eassumption.
      - subst. do 4 eexists. eassumption.
      - eauto.
      - exists nodes, w, w1, d0, cs, h, x1, w2, (x2, w3), nd. repeat (split; [assumption|]). reflexivity.
      - assumption.
    Qed.
    Lemma ing_assoc k kids w nodes w' : ingests_all kids w nodes w' ->
      match assoc k kids, assoc k nodes with
      | Some t, Some nd => exists w1 w2, ingests t w1 nd w2
      | None, None => True
      | _, _ => False
      end.
    Proof using. induction 1 as [w|k' t kids w nd w1 nodes w2 H1 H2 IH]; [exact Logic.I|]. cbn [assoc]. destruct (bytes_eqb k' k); [eauto|exact IH]. Qed.
    Lemma same_roots :
      (forall t w nd w', ingests t w nd w' -> forall t2 w2 nd2 w2', same_tree t t2 -> ingests t2 w2 nd2 w2' -> nd = nd2) /\
      (forall kids w nodes w', ingests_all kids w nodes w' -> forall k, match assoc k kids, assoc k nodes with
        | Some t, Some nd => forall t2 w2 nd2 w2', same_tree t t2 -> ingests t2 w2 nd2 w2' -> nd = nd2
        | None, None => True
        | _, _ => False
        end).
    Proof using Hn Hh Hv HT.
      apply ing_ind2.
      - intros content fuel fi w root w' Et E t2 w2 nd2 w2' Hs H2. revert Et. inversion Hs; subst. intros Et. apply ing_made in H2. cbn [made_by] in H2. destruct H2 as (f2 & fi2 & v & v' & E2). rewrite Et in E2. eapply balanced_det; eauto.
      - intros content fuel fi w root w' Et _ _ E t2 w2 nd2 w2' Hs H2. revert Et. inversion Hs; subst. intros Et. apply ing_made in H2. cbn [made_by] in H2. destruct H2 as (f2 & fi2 & v & v' & E2). rewrite Et in E2. eapply trickle_det; eauto.
      - intros target data w w' _ E _ t2 w2 nd2 w2' Hs H2. inversion Hs; subst. apply ing_made in H2. destruct H2 as (data2 & E2 & ->). congruence.
      - intros kids nodes w w1 d0 cs h x1 w2 x2 nd w3 w4 _ IH E0 Hc HF Hr Hk Hd Hg _ t2 v nd2 v' Hs H2. inversion Hs as [| |? kids2 S1 S2]; subst. apply ing_made in H2.
        destruct H2 as (nodes2 & u & u1 & e0 & cs2 & h2 & y1 & u2 & s & nd0 & Ha & E0' & Hc' & HF' & Hr' & Hk' & Hd' & Hg' & ->).
        assert (He : deq (dcontents dempty h) (dcontents dempty h2)).
        { intros k. rewrite Hd, Hd'. pose proof (ing_assoc k _ _ _ _ Ha) as A. specialize (IH k). specialize (S1 k). specialize (S2 k).
          destruct (assoc k kids) as [t1|], (assoc k kids2) as [t2|]; [| | |].
          - destruct (assoc k nodes) as [m|]; [|contradiction]. destruct (assoc k nodes2) as [m2|]; [|contradiction]. destruct A as (a1 & a2 & A). rewrite (IH t2 a1 m2 a2 (S2 _ _ eq_refl eq_refl) A). reflexivity.
          - discriminate (proj2 S1 eq_refl).
          - discriminate (proj1 S1 eq_refl).
          - destruct (assoc k nodes); [contradiction|]. destruct (assoc k nodes2); [contradiction|reflexivity]. }
        destruct (fixed_root hash n W b T d0 w1 cs h (x1, w2) e0 u1 cs2 h2 (y1, u2) Hn Hh Hv HT E0 Hc HF Hr Hk E0' Hc' HF' Hr' Hk' He) as [_ R]. exact (R _ _ _ _ Hg Hg').
      - intros t w nd w' w'' _ IH _. exact IH.
      - intros w k. exact Logic.I.
      - intros k' t kids w nd w1 nodes w2 _ IH1 _ IH2 k. cbn [assoc]. destruct (bytes_eqb k' k); [exact IH1|apply IH2].
    Qed.
    Lemma same_root t1 w1 n1 w1' t2 w2 n2 w2' : same_tree t1 t2 -> ingests t1 w1 n1 w1' -> ingests t2 w2 n2 w2' -> n1 = n2.
    Proof using Hn Hh Hv HT. intros Hs H1 H2. exact (proj1 same_roots _ _ _ _ H1 _ _ _ _ Hs H2). Qed.

    Hypothesis Hsp : forall c, concat (split c) = c.
    Lemma ing_publishes : (forall t w nd w', ingests t w nd w' -> publishes hash W t w nd w') /\ (forall kids w nodes w', ingests_all kids w nodes w' -> publishes_all hash W kids w nodes w').
    Proof using Hsp.
      apply ing_ind2.
      - intros content fuel fi w root w' _ E. rewrite <- (Hsp content) at 1. eapply pub_balanced, E.
      - intros content fuel fi w root w' _ H1 H2 E. rewrite <- (Hsp content) at 1. eapply pub_trickle; eauto.
      - intros. eapply pub_link; eauto.
      - intros. eapply pub_dir; eauto.
      - intros. eapply pub_more; eauto.
      - constructor.
      - intros. econstructor; eauto.
    Qed.
    Lemma ingest_publishes t w nd w' : ingests t w nd w' -> publishes hash W t w nd w'.
    Proof using Hsp. apply ing_publishes. Qed.
  End Fixed.

  (** ** The same root holds the same tree *)

  Lemma file_not_dir bb w nd c d : file_content nd c -> saved hash W bb w nd d -> False.
  Proof using Hn Hh Hv.
    intros (cs & H & _) Hs. destruct folder_data as [D HD]. destruct (saved_dir hash n W Hn Hh Hv bb w nd d D HD Hs) as (x & E & _).
    destruct H as [p dd|p dd fs Ef Ht _ _|p dd fs ls css _ Hu Ef Ht _ _ _ _]; [discriminate| |]; cbn [NewDirectoryFromNode] in E; rewrite Ef in E; cbn [rbind] in E; destruct Ht as [Ht|Ht]; rewrite Ht in E; discriminate.
  Qed.
  Lemma link_data_type target data : zlen target < two64 -> SymlinkData target = Ok data -> exists fs, FSNodeFromBytes data = Ok fs /\ getType fs = TSymlink /\ getData fs = target.
  Proof using. clear Hn Hh Hv. intros Hl E. destruct (SymlinkData_decode target Hl) as (b' & E1 & E2). assert (b' = data) by congruence. subst. unfold FSNodeFromBytes. rewrite E2. eexists. split; [reflexivity|]. split; reflexivity. Qed.
  Lemma file_not_link p data c target : zlen target < two64 -> SymlinkData target = Ok data -> file_content (NProto p data []) c -> False.
  Proof using.
    clear Hn Hh Hv. intros Hl E (cs & H & _). destruct (link_data_type target data Hl E) as (fs & Ef & Et & _). inversion H; subst; match goal with X : FSNodeFromBytes data = Ok ?f, Y : getType ?f = _ \/ _ |- _ => rewrite Ef in X; injection X as <-; rewrite Et in Y; destruct Y; discriminate end.
  Qed.
  Lemma link_not_dir bb w p data target d : zlen target < two64 -> SymlinkData target = Ok data -> saved hash W bb w (NProto p data []) d -> False.
  Proof using Hn Hh Hv.
    intros Hl Ed Hs. destruct folder_data as [D HD]. destruct (saved_dir hash n W Hn Hh Hv bb w _ d D HD Hs) as (x & E & _). destruct (link_data_type target data Hl Ed) as (fs & Ef & Et & _).
    cbn [NewDirectoryFromNode] in E. rewrite Ef in E. cbn [rbind] in E. rewrite Et in E. discriminate.
  Qed.
  Lemma assoc_well k kids t : assoc k kids = Some t -> well_named (TDir kids) -> k <> [] /\ well_named t.
  Proof using.
    clear Hn Hh Hv. intros E H. inversion H as [| |? _ H1 H2]; subst. clear H. revert E H1 H2. induction kids as [|[k' t'] kids IH]; [discriminate|]. cbn [assoc map fst snd]. intros E H1 H2. inversion H1; inversion H2; subst. destruct (bytes_eqb k' k) eqn:Ek; [|auto].
    apply bytes_eqb_eq in Ek. injection E as ->. subst. auto.
  Qed.
  Lemma same_content : forall t1 t2 w1 w2 nd w, publishes hash W t1 w1 nd w -> publishes hash W t2 w2 nd w -> ~ unreachable w -> well_named t1 -> well_named t2 -> same_tree t1 t2.
  Proof using Hn Hh Hv.
    apply (tree_rect2 (fun t1 => forall t2 w1 w2 nd w, publishes hash W t1 w1 nd w -> publishes hash W t2 w2 nd w -> ~ unreachable w -> well_named t1 -> well_named t2 -> same_tree t1 t2)).
    - intros c t2 w1 w2 nd w P1 P2 Hu _ _. apply (publish_part hash n W Hn Hh Hv) in P1 as (_ & _ & _ & P1 & _). apply (publish_part hash n W Hn Hh Hv) in P2 as (_ & _ & _ & P2). destruct t2 as [c2|target|kids].
      + destruct P2 as [P2 _]. destruct P1 as (c1 & F1 & ->), P2 as (c2' & F2 & ->). rewrite (file_dag_fun _ _ _ F1 F2). constructor.
      + destruct P2 as (p & data & Hl & E & ->). destruct (file_not_link _ _ _ _ Hl E P1).
      + destruct P2 as (nodes & v0 & v1 & bb & d & _ & _ & Hs & _). destruct (file_not_dir _ _ _ _ _ P1 Hs).
    - intros target t2 w1 w2 nd w P1 P2 Hu _ _. apply (publish_part hash n W Hn Hh Hv) in P1 as (_ & _ & _ & p & data & Hl & E & ->). apply (publish_part hash n W Hn Hh Hv) in P2 as (_ & _ & _ & P2). destruct t2 as [c2|target2|kids].
      + destruct P2 as [P2 _]. destruct (file_not_link _ _ _ _ Hl E P2).
      + destruct P2 as (p2 & data2 & Hl2 & E2 & Eq). injection Eq as _ <-. destruct (link_data_type _ _ Hl E) as (f1 & A1 & _ & B1). destruct (link_data_type _ _ Hl2 E2) as (f2 & A2 & _ & B2). assert (f1 = f2) by congruence. subst. constructor.
      + destruct P2 as (nodes & v0 & v1 & bb & d & _ & _ & Hs & _). destruct (link_not_dir _ _ _ _ _ _ Hl E Hs).
    - intros kids IH t2 w1 w2 nd w P1 P2 Hu N1 N2. apply (publish_part hash n W Hn Hh Hv) in P1 as (_ & _ & _ & nodes1 & v0 & v1 & b1 & d1 & A1 & X1 & S1 & D1). apply (publish_part hash n W Hn Hh Hv) in P2 as (_ & _ & _ & P2). destruct t2 as [c2|target2|kids2].
      + destruct P2 as [P2 _]. destruct (file_not_dir _ _ _ _ _ P2 S1).
      + destruct P2 as (p2 & data2 & Hl2 & E2 & ->). destruct (link_not_dir _ _ _ _ _ _ Hl2 E2 S1).
      + destruct P2 as (nodes2 & u0 & u1 & b2 & d2 & A2 & X2 & S2 & D2).
        assert (Hk : forall k : bytes, k <> [] -> d1 k = d2 k).
        { intros k Hk. pose proof (resolve_saved hash n W Hn Hh Hv b1 w nd d1 k [] S1 Hk) as R1. pose proof (resolve_saved hash n W Hn Hh Hv b2 w nd d2 k [] S2 Hk) as R2.
          destruct (ResolveUnixfsOnce hash w nd [k]) as [[[l|] r]|e| |]; try contradiction; [destruct R1 as [_ ->], R2 as [_ ->]; reflexivity|].
          destruct R1 as [[-> _]|[_ R1]]; [|contradiction]. destruct R2 as [[-> _]|[_ R2]]; [reflexivity|contradiction]. }
        assert (Hnone : forall kids', well_named (TDir kids') -> assoc [] kids' = None). { intros kids' Hw. destruct (assoc [] kids') eqn:E; [|reflexivity]. destruct (assoc_well _ _ _ E Hw) as [[] _]. reflexivity. }
        assert (Hboth : forall k, match assoc k kids, assoc k kids2 with Some t, Some t' => exists a b' m, publishes hash W t a m w /\ publishes hash W t' b' m w | None, None => True | _, _ => False end).
        { intros k. destruct (list_eq_dec Byte.byte_eq_dec k []) as [->|Hne]; [rewrite !Hnone by assumption; exact Logic.I|]. specialize (Hk k Hne). rewrite D1, D2 in Hk.
          pose proof (all_assoc hash n W Hn Hh Hv k _ _ _ _ A1) as B1. pose proof (all_assoc hash n W Hn Hh Hv k _ _ _ _ A2) as B2.
          destruct (assoc k kids) as [t|], (assoc k nodes1) as [m1|]; try contradiction; destruct (assoc k kids2) as [t'|], (assoc k nodes2) as [m2|]; try contradiction; try discriminate; [|exact Logic.I].
          destruct B1 as [a B1], B2 as [a' B2]. cbn [option_map] in Hk. injection Hk as _ Hk. exists a, a', m1.
          assert (Q1 : publishes hash W t a m1 w) by (eapply pub_more; eauto). assert (Q2 : publishes hash W t' a' m2 w) by (eapply pub_more; eauto).
          pose proof (proj1 (proj2 (publish_part hash n W Hn Hh Hv _ _ _ _ Q1))) as E1. pose proof (proj1 (proj2 (publish_part hash n W Hn Hh Hv _ _ _ _ Q2))) as E2. split; [exact Q1|]. rewrite <- E1, Hk, E2. exact Q2. }
        constructor.
        * intros k. specialize (Hboth k). destruct (assoc k kids), (assoc k kids2); try contradiction; split; congruence.
        * intros k t t' E1 E2. specialize (Hboth k). rewrite E1, E2 in Hboth. destruct Hboth as (a & a' & m & Q1 & Q2). assert (Hi : In t (map snd kids)).
          { clear - E1. induction kids as [|[k' x] kids IHk]; [discriminate|]. cbn [assoc map snd] in *. destruct (bytes_eqb k' k); [injection E1 as ->; now left|right; auto]. }
          rewrite Forall_forall in IH. apply (IH t Hi t' a a' m w Q1 Q2 Hu); [eapply assoc_well, N1; eassumption|eapply assoc_well, N2; eassumption].
  Qed.
End Same.
