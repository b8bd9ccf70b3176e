(** Serialising and enumerating a represented shard. *)
From Coq Require Import Sorting.Sorted Sorting.Permutation.
From Verif Require Import Base Pb PbProofs FSNode FSNodeProofs Dag DagProofs Builder HashBits Bitfield SpecHash HashProofs Hamt SpecHamt HamtRep.

(** ** Worlds only grow *)

Lemma wext_refl w : wext w w.
Proof. split; [reflexivity|]. split; [reflexivity|]. split; [reflexivity|]. split; [|lia]. exists []. now rewrite app_nil_r. Qed.
Lemma wext_trans a b c : wext a b -> wext b c -> wext a c.
Proof.
  intros (A1 & A2 & A3 & (l & A4) & A5) (B1 & B2 & B3 & (m & B4) & B5). split; [congruence|]. split; [congruence|]. split; [congruence|]. split; [|lia].
  exists (l ++ m). rewrite B4, A4. now rewrite app_assoc.
Qed.
Lemma wext_stored w w' n : wext w w' -> stored w n = true -> stored w' n = true.
Proof.
  intros (A1 & _ & _ & (l & A4) & _) H. unfold stored in *. rewrite A1, A4, existsb_app. apply orb_true_iff in H as [->|H]; [reflexivity|]. rewrite H. cbn. apply orb_true_r.
Qed.
Lemma dserv_add_spec n o w : exists r w', dserv_add n o w = (r, w') /\ wext w w' /\ w_calls w' = S (w_calls w) /\
  (r = Ok tt /\ stored w' (seal n) = true /\ w_addok w (w_calls w) = true \/ r = Err EAdd /\ w_addok w (w_calls w) = false).
Proof.
  unfold dserv_add. destruct (w_addok w (w_calls w)) eqn:E; eexists _, _; (split; [reflexivity|]); (split; [split; [reflexivity|]; split; [reflexivity|]; split; [reflexivity|]; cbn; split; [|lia]|]).
  - eexists. reflexivity.
  - split; [reflexivity|]. left. split; [reflexivity|]. split; [|reflexivity]. unfold stored. cbn [w_added]. rewrite existsb_app. cbn. rewrite node_eqb_refl. cbn. rewrite !orb_true_r. auto.
  - exists []. now rewrite app_nil_r.
  - split; [reflexivity|]. right. auto.
Qed.
Lemma add_failed_l a b c : add_failed a b -> wext b c -> add_failed a c.
Proof. intros (n & H1 & H2) (_ & _ & _ & _ & H3). exists n. split; [lia|assumption]. Qed.
Lemma add_failed_r a b c : wext a b -> add_failed b c -> add_failed a c.
Proof. intros (_ & E & _ & _ & H3) (n & H1 & H2). exists n. rewrite E in H2. split; [lia|assumption]. Qed.

(** No Add call between two worlds failed. *)
Definition all_added (w w' : world) : Prop := forall n, (w_calls w <= n < w_calls w')%nat -> w_addok w n = true.
Lemma all_added_refl w : all_added w w.
Proof. intros n H. lia. Qed.
Lemma all_added_trans a b c : wext a b -> all_added a b -> all_added b c -> all_added a c.
Proof.
  intros (_ & E & _ & _ & H3) H1 H2 n Hn. destruct (Nat.lt_ge_cases n (w_calls b)) as [Hl|Hg]; [apply H1; lia|]. rewrite <- E. apply H2. lia.
Qed.
Lemma all_added_one w w' : w_calls w' = S (w_calls w) -> w_addok w (w_calls w) = true -> all_added w w'.
Proof. intros E H n Hn. replace n with (w_calls w) by lia. assumption. Qed.

(** ** Sorted links *)

Lemma name_lt_asym a b : name_lt a b -> name_ltb b a = false.
Proof.
  intros H. destruct (name_ltb b a) eqn:E; [|reflexivity]. exfalso. apply name_ltb_spec in E. revert E. induction H; intros E; inversion E; subst; try lia; auto.
Qed.
Lemma lsort_sorted {T} (ls : list (plink T)) : StronglySorted (fun a b => name_lt (lname a) (lname b)) ls -> lsort ls = ls.
Proof.
  induction 1 as [|l ls Hs IH HF]; [reflexivity|]. cbn [lsort]. rewrite IH. destruct ls as [|m r]; [reflexivity|]. cbn [linsert]. inversion HF; subst. now rewrite name_lt_asym.
Qed.

Section Node.
  Variables (hash : bytes -> bytes) (L lg W : Z) (P : prefix -> Prop).
  Hypothesis Hlg : 3 <= lg <= 10.
  Hypothesis HW : Logtwo W = Ok lg.
  Hypothesis Hhash : forall k, 8 * zlen (hash k) = L.
  Notation ser := (ser W P).
  Notation wf := (wf hash L lg).
  Notation wfk := (wfk hash L lg).
  Notation rep := (rep W P).
  Notation reps := (reps W P).
  Notation pad := (pad W).

  Lemma ser_sorted U c kids nd : wfk c kids -> ser U (Branch kids) nd -> seal nd = nd.
  Proof.
    intros Hwf H. apply (ser_branch lg W P Hlg) in H as (p & ls & -> & _ & _ & HF). cbn [seal]. f_equal. apply lsort_sorted. pose proof (wfk_range hash L lg W Hlg HW Hhash _ _ Hwf) as HR. destruct Hwf as (_ & Hs & _). clear - Hs HR HF.
    induction HF as [|[i t] l r ls Hl HF IH]; [constructor|]. cbn [map fst] in *. inversion Hs as [|? ? H1 H2]; subst. inversion HR as [|? ? R1 R2]; subst. constructor; [now apply IH|].
    clear - Hl HF H2 R1 R2. induction HF as [|[j u] m r ls Hm HF IH]; [constructor|]. cbn [map fst] in *. inversion H2 as [|? ? H3 H4]; subst. inversion R2 as [|? ? R3 R4]; subst. constructor; [|now apply IH].
    destruct Hl as [-> _], Hm as [-> _]. cbn [fst snd]. destruct (slot_names W i R1) as (_ & N1 & N2). destruct (slot_names W j R3) as (_ & N3 & _). apply name_lt_app; [unfold pad; congruence|]. apply N2. lia.
  Qed.

  Lemma ser_mono (U V : node -> Prop) t : (forall n, U n -> V n) -> forall nd, ser U t nd -> ser V t nd.
  Proof.
    intros HUV. induction t as [k v|kids IH] using trie_ind'; [auto|]. intros nd H. apply (ser_branch lg W P Hlg) in H as (p & ls & H1 & H2 & H3 & H4). apply (ser_branch lg W P Hlg).
    exists p, ls. split; [exact H1|]. split; [exact H2|]. split; [now apply HUV|]. clear - IH H4. induction H4 as [|y l ks ls (A1 & A2 & A3) H4 IH2]; [constructor|]. inversion IH; subst. constructor; [|auto]. split; [exact A1|]. split; [exact A2|auto].
  Qed.
  (** With one prefix there is one stored form. *)
  Lemma ser_unique (U V : node -> Prop) t : (forall p q, P p -> P q -> p = q) -> forall n1 n2, ser U t n1 -> ser V t n2 -> n1 = n2.
  Proof.
    intros HPP. induction t as [k v|kids IH] using trie_ind'; [cbn [HamtRep.ser]; congruence|]. intros n1 n2 H1 H2. apply (ser_branch lg W P Hlg) in H1 as (p & ls & -> & P1 & _ & H1). apply (ser_branch lg W P Hlg) in H2 as (q & ms & -> & P2 & _ & H2).
    rewrite (HPP p q P1 P2). f_equal. clear - IH H1 H2. revert ms H2. induction H1 as [|y l ks ls (A1 & A2 & A3) H4 IH2]; intros ms H2; inversion H2 as [|? m ? ms' (B1 & B2 & B3) H5]; subst; [reflexivity|]. inversion IH as [|? ? I1 I2]; subst. f_equal; [|now apply IH2].
    destruct l as [a b c], m as [a' b' c']. cbn [lname lsize lto] in *. pose proof (I1 _ _ A3 B3). subst c'. congruence.
  Qed.

  Lemma rep_mono (U V : node -> Prop) t : (forall n, U n -> V n) -> forall x, rep U x t -> rep V x t.
  Proof.
    intros HUV. induction t as [k v|kids IH] using trie_ind'; intros x H; [exact H|]. destruct x as [l|c]; [destruct H as (H1 & H2 & H3); split; [assumption|split; [assumption|]]; exact (ser_mono U V _ HUV _ H3)|].
    rewrite (rep_branch lg W P Hlg) in *. destruct H as (H1 & H2 & H3 & H4 & H5). split; [assumption|]. split; [assumption|]. split; [assumption|]. split; [assumption|].
    clear - IH H5 Hlg. induction H5; [constructor|]. inversion IH; subst. constructor; auto.
  Qed.
  Lemma reps_mono (U V : node -> Prop) ds kids : (forall n, U n -> V n) -> reps U ds kids -> reps V ds kids.
  Proof. intros H Hr. apply (rep_branch lg W P Hlg). apply (rep_branch lg W P Hlg) in Hr. eapply rep_mono; eauto. Qed.

  (** *** Node *)

  Definition node_go (pd : nat) := fix go (slots : list (slot shard)) (idxs : list Z) {struct slots} : M world (list link) :=
      match idxs with
      | [] => ret []
      | idx :: ir =>
          match slots with
          | [] => lift Panic
          | x :: sr =>
              do l <- (match x with
                       | SShard ch =>
                           do cl <- (match (if isValueNode ch then s_val ch else None) with
                                     | Some v => ret v
                                     | None =>
                                         do nd <- Node ch ;;
                                         do _ <- dserv_add nd None ;;
                                         ret (make_link [] nd)
                                     end) ;;
                           ret (mkLink (hexpad pd idx ++ s_key ch) (lsize cl) (lto cl))
                       | SLink l =>
                           if (length (lname l) <? pd)%nat then lift Panic
                           else ret (mkLink (hexpad pd idx ++ skipn pd (lname l)) (lsize l) (lto l))
                       end) ;;
              do r <- go sr ir ;;
              ret (l :: r)
          end
      end.
  Lemma Node_eq ds : Node ds =
    (do idxs <- lift (set_bits (s_bf ds) 0 (Z.to_nat (s_size ds))) ;;
     do ls <- node_go (length (hexX (s_size ds - 1))) (s_slots ds) idxs ;;
     do data <- lift (HAMTShardData (bf_bytes (s_bf ds)) (u64 (s_size ds)) HashMurmur3) ;;
     do _ <- dserv_add (NProto (proto_prefix (s_builder ds)) data ls) None ;;
     ret (seal (NProto (proto_prefix (s_builder ds)) data ls))).
  Proof. destruct ds. reflexivity. Qed.

  Definition stored_all (w : world) (t : trie) (nd : node) : Prop := ser (fun n => stored w n = true) t nd.
  Lemma stored_all_ext w w' t nd : wext w w' -> stored_all w t nd -> stored_all w' t nd.
  Proof. intros Hw. apply ser_mono. intros n. now apply wext_stored. Qed.

  Definition node_post (kids : list (Z * trie)) (w : world) (r : res node) (w' : world) : Prop :=
    wext w w' /\ ((exists nd, r = Ok nd /\ stored_all w' (Branch kids) nd) /\ all_added w w' \/ r = Err EAdd /\ add_failed w w').

  Lemma node_go_spec U kids : Forall (fun x => forall kk, snd x = Branch kk -> forall c ds w, reps U ds kk -> wfk c kk -> (forall n, U n -> stored w n = true) ->
      exists r w', Node ds w = (r, w') /\ node_post kk w r w') kids ->
    forall c slots w, Forall (fun x => wf c (snd x)) kids -> Forall2 (fun y x => rep U x (snd y)) kids slots -> (forall n, U n -> stored w n = true) ->
    exists r w', node_go pad slots (map fst kids) w = (r, w') /\ wext w w' /\
      ((exists ls, r = Ok ls /\ Forall2 (ser_link W P (fun n => stored w' n = true)) kids ls) /\ all_added w w' \/ r = Err EAdd /\ add_failed w w').
  Proof.
    induction kids as [|[i t] r IH]; intros HI c slots w Hwf HF HU.
    - inversion HF; subst. exists (Ok []), w. split; [reflexivity|]. split; [apply wext_refl|]. left. split; [eexists; split; [reflexivity|constructor]|apply all_added_refl].
    - inversion HI as [|? ? HI1 HI2]; subst. inversion Hwf as [|? ? W1 W2]; subst. inversion HF as [|? x ? sr Hx HF2]; subst. cbn [snd map fst] in *.
      cbn [node_go]. fold (node_go pad).
      (* the link of this slot *)
      set (m := match x with SShard ch => _ | SLink l => _ end).
      assert (Hm : exists rl w1, m w = (rl, w1) /\ wext w w1 /\ ((exists l, rl = Ok l /\ ser_link W P (fun n => stored w1 n = true) (i, t) l) /\ all_added w w1 \/ rl = Err EAdd /\ add_failed w w1)).
      { unfold m. clear m IH HI2 HF2. destruct t as [k v|kk].
        - cbn [wf] in W1. destruct x as [l|ch].
          + destruct Hx as [(p & Hp & Hn) Hv]. rewrite Hn, app_length, Hp. replace (_ <? _)%nat with false by lia. eexists _, w. split; [reflexivity|]. split; [apply wext_refl|]. left. split; [|apply all_added_refl].
            eexists. split; [reflexivity|]. unfold ser_link. cbn [fst snd tkey HamtRep.ser lname lsize lto]. rewrite <- Hp, skipn_app, skipn_all, Nat.sub_diag. rewrite <- Hv. cbn [fst snd content]. auto.
          + destruct (isValue_leaf W P U ch k v W1 Hx) as (Ev & Ek & l & El & Ec & _). rewrite Ev, El, Ek. eexists _, w. split; [reflexivity|]. split; [apply wext_refl|]. left. split; [|apply all_added_refl].
            eexists. split; [reflexivity|]. unfold ser_link. cbn [fst snd tkey HamtRep.ser lname lsize lto]. rewrite <- Ec. cbn [fst snd content]. auto.
        - destruct x as [l|ch].
          + destruct Hx as (Hl & Hv & HA). rewrite Hl. replace (pad <? pad)%nat with false by lia. eexists _, w. split; [reflexivity|]. split; [apply wext_refl|]. left. split; [|apply all_added_refl].
            eexists. split; [reflexivity|]. unfold ser_link. cbn [fst snd tkey lname lsize lto]. rewrite skipn_all2 by lia. split; [reflexivity|]. split; [exact Hv|]. exact (ser_mono U _ _ HU _ HA).
          + rewrite (isValue_branch lg W P Hlg U ch kk Hx). apply (rep_branch lg W P Hlg) in Hx. pose proof W1 as W1'. apply (wf_branch hash L lg Hlg) in W1 as [_ Wk]. destruct (HI1 kk eq_refl c ch w Hx Wk HU) as (r1 & w1 & E1 & X1 & H1).
            unfold bind. rewrite E1. destruct H1 as [((nd & -> & S1) & Y1)|[-> F1]].
            * destruct (dserv_add_spec nd None w1) as (r2 & w2 & E2 & X2 & C2 & H2). rewrite E2. destruct H2 as [(-> & _ & Y2)|[-> F2]].
              -- unfold ret. eexists _, w2. split; [reflexivity|]. split; [now apply (wext_trans w w1 w2)|]. left. split; [|now apply (all_added_trans w w1 w2 X1 Y1), all_added_one].
                 eexists. split; [reflexivity|]. unfold ser_link, make_link. cbn [fst snd tkey lname lsize lto]. rewrite (ser_sorted _ _ _ _ Wk S1). destruct Hx as [[-> _] _]. split; [reflexivity|]. split; [reflexivity|]. exact (stored_all_ext w1 w2 _ _ X2 S1).
              -- eexists _, w2. split; [reflexivity|]. split; [now apply (wext_trans w w1 w2)|]. right. split; [reflexivity|]. apply (add_failed_r w w1 w2 X1).
                 exists (w_calls w1). split; [lia|assumption].
            * eexists _, w1. split; [reflexivity|]. split; [assumption|]. right. auto. }
      destruct Hm as (rl & w1 & E1 & X1 & H1). unfold bind at 1. rewrite E1. destruct H1 as [((l & -> & S1) & Y1)|[-> F1]].
      2:{ eexists _, w1. split; [reflexivity|]. split; [assumption|]. right. auto. }
      destruct (IH HI2 c sr w1 W2 HF2 (fun n Hn => wext_stored _ _ _ X1 (HU n Hn))) as (r2 & w2 & E2 & X2 & H2). unfold bind. rewrite E2. destruct H2 as [((ls & -> & S2) & Y2)|[-> F2]].
      + eexists _, w2. split; [reflexivity|]. split; [now apply (wext_trans w w1 w2)|]. left. split; [|now apply (all_added_trans w w1 w2 X1 Y1)]. eexists. split; [reflexivity|]. constructor; [|assumption]. destruct S1 as (A1 & A2 & A3). split; [exact A1|]. split; [exact A2|]. exact (stored_all_ext w1 w2 _ _ X2 A3).
      + eexists _, w2. split; [reflexivity|]. split; [now apply (wext_trans w w1 w2)|]. right. split; [reflexivity|]. now apply (add_failed_r w w1 w2).
  Qed.

  Lemma node_spec_aux U kids : Forall (fun x => forall kk, snd x = Branch kk -> forall c ds w, reps U ds kk -> wfk c kk -> (forall n, U n -> stored w n = true) ->
      exists r w', Node ds w = (r, w') /\ node_post kk w r w') kids ->
    forall c ds w, reps U ds kids -> wfk c kids -> (forall n, U n -> stored w n = true) -> exists r w', Node ds w = (r, w') /\ node_post kids w r w'.
  Proof.
    intros HI c ds w Hr Hwf HU. rewrite Node_eq. pose proof (wfk_range hash L lg W Hlg HW Hhash _ _ Hwf) as HR. pose proof Hr as (H1 & H2 & H3 & H4 & H5). unfold bind, lift.
    rewrite H2. rewrite (bitmap_bits hash L lg W Hlg HW Hhash (s_bf ds) (map fst kids)) by (auto; apply Hwf). change (length (hexX (W - 1))) with pad.
    destruct (node_go_spec U kids HI (c + lg) (s_slots ds) w) as (r1 & w1 & E1 & X1 & G1); [|assumption|assumption|].
    { destruct Hwf as (_ & _ & Hwf). eapply Forall_impl; [|exact Hwf]. now intros x [_ Hx]. }
    rewrite E1. pose proof (W_bounds lg W Hlg HW) as WB. destruct G1 as [((ls & -> & S1) & Y1)|[-> F1]].
    2:{ eexists _, w1. split; [reflexivity|]. split; [assumption|]. right. auto. }
    rewrite (u64_small W) by (unfold two64; lia).
    assert (Ebf : s_bf ds = mkbm W (map fst kids)) by (eapply (bitmap_unique hash L lg W Hlg Hhash); [exact H4|]; eapply mkbm_ok; eassumption).
    destruct (HAMTShardData_decode (bf_bytes (s_bf ds)) W HashMurmur3) as (b & Eb & _).
    { destruct H4 as [B1 _]. destruct (bf_bytes_zero (s_bf ds)) as [n Hn]. unfold zlen in *. rewrite Hn, app_length in B1. unfold two64. lia. }
    { unfold in_u64, two64. lia. }
    { unfold in_u64, two64, HashMurmur3. lia. }
    assert (Eh : hdata W (map fst kids) = b) by (unfold hdata; rewrite <- Ebf; now rewrite Eb).
    rewrite Eb, <- Eh. set (nd := NProto _ _ ls). destruct (dserv_add_spec nd None w1) as (r2 & w2 & E2 & X2 & C2 & G2). rewrite E2.
    assert (Hm : Forall2 (ser_link W P (fun n => stored w2 n = true)) kids ls).
    { clear - S1 X2 Hlg. induction S1 as [|y l ks ls (A1 & A2 & A3) S1 IH]; [constructor|]. constructor; [|exact IH]. split; [exact A1|]. split; [exact A2|]. exact (stored_all_ext w1 w2 _ _ X2 A3). }
    assert (Hs : seal nd = nd).
    { apply (ser_sorted (fun _ => True) c kids nd Hwf). apply (ser_branch lg W P Hlg). exists (proto_prefix (s_builder ds)), ls. split; [reflexivity|]. split; [exact H3|]. split; [exact I|].
      clear - Hm Hlg. induction Hm as [|y l ks ls (A1 & A2 & A3) S1 IH]; [constructor|]. constructor; [|exact IH]. split; [exact A1|]. split; [exact A2|]. refine (ser_mono _ _ _ _ _ A3). auto. }
    rewrite Hs in *. destruct G2 as [(-> & S2 & Y2)|[-> F2]].
    - eexists _, w2. split; [reflexivity|]. split; [now apply (wext_trans w w1 w2)|]. left. split; [|now apply (all_added_trans w w1 w2 X1 Y1), all_added_one]. eexists. split; [reflexivity|]. apply (ser_branch lg W P Hlg).
      exists (proto_prefix (s_builder ds)), ls. split; [reflexivity|]. split; [exact H3|]. split; [exact S2|exact Hm].
    - eexists _, w2. split; [reflexivity|]. split; [now apply (wext_trans w w1 w2)|]. right. split; [reflexivity|]. apply (add_failed_r w w1 w2 X1). exists (w_calls w1). split; [lia|assumption].
  Qed.
  Lemma node_spec_t U t : forall kk, t = Branch kk -> forall c ds w, reps U ds kk -> wfk c kk -> (forall n, U n -> stored w n = true) ->
    exists r w', Node ds w = (r, w') /\ node_post kk w r w'.
  Proof.
    induction t as [k v|kids IH] using trie_ind'; intros kk E; [discriminate|]. injection E as <-. now apply node_spec_aux.
  Qed.
  Lemma node_spec U kids c ds w : reps U ds kids -> wfk c kids -> (forall n, U n -> stored w n = true) -> exists r w', Node ds w = (r, w') /\ node_post kids w r w'.
  Proof. now apply (node_spec_t U (Branch kids) kids). Qed.

  (** *** ForEachLink *)

  Definition walk_each (f : nat) (w : world) (cb : callback) := fix each (n : nat) (i : Z) (st : shard * list link) {struct n} : res unit * (shard * list link) :=
         match n with
         | O => (Ok tt, st)
         | S m =>
             let (s, acc) := st in
             match get_child w i s with
             | (Ok c, s1) =>
                 match (if isValueNode c then s_val c else None) with
                 | Some v =>
                     let lnk := mkLink (s_key c) (lsize v) (lto v) in
                     let s2 := set_child (SShard (set_val (Some lnk) c)) i s1 in
                     match cb acc lnk with
                     | Some e => (Err e, (s2, lnk :: acc))
                     | None => each m (i + 1) (s2, lnk :: acc)
                     end
                 | None =>
                     match walkTrie f w cb (c, acc) with
                     | (Ok _, (c', acc')) => each m (i + 1) (set_child (SShard c') i s1, acc')
                     | (Err e, (c', acc')) => (Err e, (set_child (SShard c') i s1, acc'))
                     | (Panic, (c', acc')) => (Panic, (set_child (SShard c') i s1, acc'))
                     | (Fuel, (c', acc')) => (Fuel, (set_child (SShard c') i s1, acc'))
                     end
                 end
             | (Err e, s1) => (Err e, (s1, acc))
             | (Panic, s1) => (Panic, (s1, acc))
             | (Fuel, s1) => (Fuel, (s1, acc))
             end
         end.
  Lemma walkTrie_eq f w cb st : walkTrie (S f) w cb st = walk_each f w cb (length (s_slots (fst st))) 0 st.
  Proof. reflexivity. Qed.

  Lemma feed_app cb a : forall acc b, feed cb acc (a ++ b) = match feed cb acc a with (None, acc') => feed cb acc' b | x => x end.
  Proof. induction a as [|e a IH]; intros acc b; [reflexivity|]. cbn [app feed]. destruct (cb acc (plain e)); [reflexivity|]. apply IH. Qed.

  Fixpoint theight (t : trie) : nat :=
    match t with Leaf _ _ => O | Branch kids => S (fold_right (fun x m => Nat.max (theight (snd x)) m) O kids) end.

  Definition walk_post (U : node -> Prop) (kids : list (Z * trie)) (w : world) (cb : callback) (acc : list link) (es : list (bytes * entry)) (res : res unit * (shard * list link)) : Prop :=
    let '(r, (ds', acc')) := res in
    reps U ds' kids /\
    match r with
    | Ok _ => feed cb acc es = (None, acc')
    | Err e => feed cb acc es = (Some e, acc') \/
        (e = EFetch /\ fetch_fails U w /\ exists es1 es2, es = es1 ++ es2 /\ feed cb acc es1 = (None, acc'))
    | _ => False
    end.

  Hypothesis HP : forall p, P p -> p = proto_prefix (Some p).

  Lemma walk_each_spec U f w cb : (forall c ds kids acc, reps U ds kids -> wfk c kids -> (theight (Branch kids) <= f)%nat ->
      walk_post U kids w cb acc (entriesk kids) (walkTrie f w cb (ds, acc))) ->
    forall post pre ds acc c, reps U ds (pre ++ post) -> Forall (fun x => wf c (snd x)) post -> Forall (fun x => (theight (snd x) <= f)%nat) post ->
    walk_post U (pre ++ post) w cb acc (entriesk post) (walk_each f w cb (length post) (zlen pre) (ds, acc)).
  Proof.
    intros HI. induction post as [|[i t] post IH]; intros pre ds acc c Hr Hwf Hh.
    - cbn. split; [assumption|reflexivity].
    - inversion Hwf as [|? ? W1 W2]; subst. inversion Hh as [|? ? T1 T2]; subst. cbn [snd] in *. cbn [length walk_each]. fold (walk_each f w cb).
      assert (Hnext : zlen pre + 1 = zlen (pre ++ [(i, t)])) by (rewrite zlen_app; reflexivity).
      destruct (get_child_spec hash L lg W P Hlg HW Hhash U w ds pre i t post c Hr W1 HP) as [(ch & Hch & Eg)|[Eg Hff]]; rewrite Eg.
      2:{ cbn. split; [assumption|]. right. split; [reflexivity|]. split; [assumption|]. exists [], (entriesk ((i, t) :: post)). auto. }
      assert (Hstep : forall x acc', rep U x t -> walk_post U (pre ++ (i, t) :: post) w cb acc' (entriesk post) (walk_each f w cb (length post) (zlen pre + 1) (set_child x (zlen pre) ds, acc'))).
      { intros x acc' Hx. rewrite Hnext. replace (pre ++ (i, t) :: post) with ((pre ++ [(i, t)]) ++ post) by (now rewrite <- app_assoc). apply (IH (pre ++ [(i, t)]) _ acc' c); [|assumption|assumption].
        rewrite <- app_assoc. eapply reps_set; [exact Hr|exact Hx]. }
      destruct t as [k v|kk].
      + destruct (isValue_leaf W P U ch k v W1 Hch) as (Ev & Ek & l & El & Ec & _). rewrite Ev, El, Ek. rewrite set_child_twice. rewrite entriesk_cons. cbn [entries app].
        assert (Epl : mkLink k (lsize l) (lto l) = plain (k, v)) by (rewrite <- Ec; reflexivity). rewrite Epl.
        assert (Hx : rep U (SShard (set_val (Some (plain (k, v))) ch)) (Leaf k v)) by (destruct ch; cbn [rep set_val s_key s_val] in *; split; [assumption|]; eexists; split; [reflexivity|]; split; [destruct v; reflexivity|]; unfold plain; cbn [lname fst]; apply labelled_plain).
        destruct (cb acc (plain (k, v))) as [e|] eqn:Ecb.
        * cbn. split; [eapply reps_set; [exact Hr|exact Hx]|]. left. now rewrite Ecb.
        * specialize (Hstep (SShard (set_val (Some (plain (k, v))) ch)) (plain (k, v) :: acc) Hx). destruct (walk_each _ _ _ _ _ _) as [r [ds' acc']]. destruct Hstep as [S1 S2]. split; [assumption|].
          cbn [feed]. rewrite Ecb. destruct r as [u|e| |]; try contradiction; [assumption|]. destruct S2 as [S2|(S2 & S3 & e1 & e2 & S4 & S5)]; [now left|]. right. split; [assumption|]. split; [assumption|].
          exists ((k, v) :: e1), e2. rewrite S4. split; [reflexivity|]. cbn [feed]. now rewrite Ecb.
      + rewrite (isValue_branch lg W P Hlg U ch kk Hch). apply (rep_branch lg W P Hlg) in Hch. apply (wf_branch hash L lg Hlg) in W1 as [_ Wk]. pose proof (HI c ch kk acc Hch Wk T1) as S1.
        destruct (walkTrie f w cb (ch, acc)) as [r [ch1 acc1]]. destruct S1 as [A1 A2]. rewrite set_child_twice. rewrite entriesk_cons. cbn [entries]. fold (entriesk kk).
        assert (Hx : rep U (SShard ch1) (Branch kk)) by (now apply (rep_branch lg W P Hlg)).
        destruct r as [u|e| |]; try contradiction.
        * specialize (Hstep (SShard ch1) acc1 Hx). destruct (walk_each _ _ _ _ _ _) as [r [ds' acc']]. destruct Hstep as [S1 S2]. split; [assumption|]. rewrite feed_app, A2.
          destruct r as [u'|e| |]; try contradiction; [assumption|]. destruct S2 as [S2|(S2 & S3 & e1 & e2 & S4 & S5)]; [now left|]. right. split; [assumption|]. split; [assumption|].
          exists (entriesk kk ++ e1), e2. rewrite S4, app_assoc. split; [reflexivity|]. now rewrite feed_app, A2.
        * cbn. split; [eapply reps_set; [exact Hr|exact Hx]|]. rewrite feed_app. destruct A2 as [A2|(A2 & A3 & e1 & e2 & A4 & A5)]; [left; now rewrite A2|]. right. split; [assumption|]. split; [assumption|].
          exists e1, (e2 ++ entriesk post). rewrite A4, app_assoc. auto.
  Qed.
  Lemma walk_spec U f w cb : forall c ds kids acc, reps U ds kids -> wfk c kids -> (theight (Branch kids) <= f)%nat ->
      walk_post U kids w cb acc (entriesk kids) (walkTrie f w cb (ds, acc)).
  Proof.
    induction f as [|f IH]; intros c ds kids acc Hr Hwf Hh; [cbn in Hh; lia|]. rewrite walkTrie_eq. cbn [fst].
    assert (El : length (s_slots ds) = length kids) by (destruct Hr as (_ & _ & _ & _ & Hr); symmetry; eapply forall2_length; exact Hr). rewrite El.
    apply (walk_each_spec U f w cb IH kids [] ds acc (c + lg) Hr).
    - destruct Hwf as (_ & _ & Hwf). eapply Forall_impl; [|exact Hwf]. now intros x [_ Hx].
    - cbn [theight] in Hh. clear - Hh. induction kids as [|x r IH]; [constructor|]. cbn [fold_right] in Hh. constructor; [lia|]. apply IH. lia.
  Qed.

  Lemma nheight_ser U t : forall nd, ser U t nd -> (theight t <= nheight nd)%nat.
  Proof.
    induction t as [k v|kids IH] using trie_ind'; intros nd H; [cbn; lia|]. apply (ser_branch lg W P Hlg) in H as (p & ls & -> & _ & _ & H). cbn [theight nheight]. apply le_n_S. induction H as [|y l ks ls (A1 & A2 & A3) H IH2]; [cbn; lia|]. inversion IH as [|? ? I1 I2]; subst. cbn [fold_right].
    specialize (I1 _ A3). specialize (IH2 I2). lia.
  Qed.
  Lemma sheight_rep U t : forall x, rep U x t -> (theight t <= match x with SLink l => nheight (lto l) | SShard c => sheight c end)%nat.
  Proof.
    induction t as [k v|kids IH] using trie_ind'; intros x H; [cbn; lia|]. destruct x as [l|c].
    - destruct H as (_ & _ & H). exact (nheight_ser U _ _ H).
    - apply (rep_branch lg W P Hlg) in H as (_ & _ & _ & _ & H). destruct c as [z b f k v sl]. cbn [s_slots] in H. cbn [sheight theight]. apply le_n_S.
      induction H as [|y x ks sl' Hyx H IH2]; [cbn; lia|]. inversion IH as [|? ? I1 I2]; subst. cbn [fold_right]. specialize (I1 x Hyx). specialize (IH2 I2). lia.
  Qed.
  Lemma foreach_spec U w cb c ds kids acc : reps U ds kids -> wfk c kids -> walk_post U kids w cb acc (entriesk kids) (ForEachLink w cb (ds, acc)).
  Proof.
    intros Hr Hwf. unfold ForEachLink. cbn [fst]. apply (walk_spec U (sheight ds) w cb c ds kids acc Hr Hwf). apply (sheight_rep U (Branch kids) (SShard ds)). now apply (rep_branch lg W P Hlg).
  Qed.
End Node.
