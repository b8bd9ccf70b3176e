(** Node on objects, and the bound for the depth. *)
From Verif Require Import Base Pb FSNode Dag Builder HashBits Bitfield Hamt DagProofs HeapHamt HeapRep HeapOps HeapGet HeapSwap HeapRun HeapRead HeapWalk.

Definition sh_height (x : slot shard) : nat := match x with SLink l => nheight (lto l) | SShard c => sheight c end.
Lemma sheight_unfold s : sheight s = S (fold_right (fun x m => Nat.max (sh_height x) m) O (s_slots s)).
Proof. destruct s as [z b f k v l]. cbn [sheight s_slots]. f_equal. Qed.

(** The links of the children. *)
Definition ngo (pad : nat) := fix go (slots : list (slot shard)) (idxs : list Z) {struct slots} : M world (list link) :=
  match idxs with
  | [] => ret []
  | idx :: ir =>
      match slots with
      | [] => lift Panic
      | x :: sr =>
          do l <- (match x with
                   | SShard ch =>
                       do cl <- (match (if isValueNode ch then s_val ch else None) with
                                 | Some v => ret v
                                 | None => do nd <- Node ch ;; do _ <- dserv_add nd None ;; ret (make_link [] nd)
                                 end) ;;
                       ret (mkLink (hexpad pad idx ++ s_key ch) (lsize cl) (lto cl))
                   | SLink l => if (length (lname l) <? pad)%nat then lift Panic else ret (mkLink (hexpad pad idx ++ skipn pad (lname l)) (lsize l) (lto l))
                   end) ;;
          do r <- go sr ir ;; ret (l :: r)
      end
  end.
Lemma Node_eq s : Node s = (do idxs <- lift (set_bits (s_bf s) 0 (Z.to_nat (s_size s))) ;;
  do ls <- ngo (maxpadlen s) (s_slots s) idxs ;;
  do data <- lift (HAMTShardData (bf_bytes (s_bf s)) (u64 (s_size s)) HashMurmur3) ;;
  do _ <- dserv_add (NProto (proto_prefix (s_builder s)) data ls) None ;; ret (seal (NProto (proto_prefix (s_builder s)) data ls))).
Proof. destruct s. reflexivity. Qed.
Definition hgo (f : nat) (h : heap) (c : scell) := fix go (slots : list hslot) (idxs : list Z) {struct slots} : M world (list link) :=
  match idxs with
  | [] => ret []
  | idx :: ir =>
      match slots with
      | [] => lift Panic
      | x :: sr =>
          do l <- (match x with
                   | HShard ch =>
                       match nth_error (h_shards h) ch with
                       | None => lift Panic
                       | Some cc =>
                           do cl <- (match (if c_isValue cc then c_val cc else None) with
                                     | Some la => match nth_error (h_links h) la with Some v => ret v | None => lift Panic end
                                     | None => do nd <- hNode f h ch ;; do _ <- dserv_add nd None ;; ret (make_link [] nd)
                                     end) ;;
                           ret (mkLink (c_prefix c idx ++ c_key cc) (lsize cl) (lto cl))
                       end
                   | HLink la =>
                       match nth_error (h_links h) la with
                       | None => lift Panic
                       | Some l => if (length (lname l) <? c_pad c)%nat then lift Panic else ret (mkLink (c_prefix c idx ++ skipn (c_pad c) (lname l)) (lsize l) (lto l))
                       end
                   end) ;;
          do r <- go sr ir ;; ret (l :: r)
      end
  end.
Lemma hNode_eq f h a c : nth_error (h_shards h) a = Some c -> hNode (S f) h a = (do idxs <- lift (set_bits (c_bf c) 0 (Z.to_nat (c_size c))) ;;
  do ls <- hgo f h c (c_slots c) idxs ;;
  do data <- lift (HAMTShardData (bf_bytes (c_bf c)) (u64 (c_size c)) HashMurmur3) ;;
  do _ <- dserv_add (NProto (proto_prefix (c_builder c)) data ls) None ;; ret (seal (NProto (proto_prefix (c_builder c)) data ls))).
Proof. intros H. cbn [hNode]. rewrite H. reflexivity. Qed.

Lemma bind_ext {S A B} (m n : M S A) (k k' : A -> M S B) s : m s = n s -> (forall a s', k a s' = k' a s') -> bind m k s = bind n k' s.
Proof. intros H K. unfold bind. rewrite H. destruct (n s) as [[a|e| |] s']; auto. Qed.
Theorem node_all {TG : Tag} h : (forall a s F G K, hrep h a s F G K -> forall f, (sheight s <= f)%nat -> forall w, hNode f h a w = Node s w) /\
  (forall xs ss F G K, hreps h xs ss F G K -> forall f c s, (forall y, In y ss -> (sh_height y <= f)%nat) -> chead c s -> forall idxs w, hgo f h c xs idxs w = ngo (maxpadlen s) ss idxs w).
Proof.
  apply hrep_both.
  - intros a c s F G0 G K Hc Hh _ _ IH f Hf w. rewrite sheight_unfold in Hf. destruct f as [|f]; [lia|]. rewrite (hNode_eq f h a c Hc), Node_eq. pose proof Hh as (-> & -> & -> & _). apply bind_ext; [reflexivity|]. intros idxs w1. apply bind_ext; [|reflexivity].
    apply IH; [|exact Hh]. intros y Hy. apply le_S_n in Hf. clear - Hf Hy. revert Hf. generalize (s_slots s) Hy. clear Hy. intros l Hy Hf. induction l as [|z l IHl]; [destruct Hy|]. cbn [fold_right] in Hf. destruct Hy as [->|Hy]; [lia|]. apply IHl; [exact Hy|lia].
  - intros f c s _ _ [|idx ir] w; reflexivity.
  - intros la l xs ss F G K Hl _ IH f c s Hf Hh [|idx ir] w; [reflexivity|]. cbn [hgo ngo]. rewrite Hl, (head_pad c s Hh), (head_prefix c s idx Hh). apply bind_ext; [reflexivity|]. intros l' w1. apply bind_ext; [|reflexivity]. apply IH; [|exact Hh]. intros y Hy. apply Hf. now right.
  - intros a s0 xs ss F1 G1 K1 F2 G2 K2 Hr IHa _ IH f c s Hf Hh [|idx ir] w; [reflexivity|]. cbn [hgo ngo]. inversion Hr as [? c0 ? F' Gv G' ? Hc0 Hh0 Hv0 _]; subst. rewrite Hc0. rewrite (value_eq h a c0 s0 _ _ _ Hr Hc0). apply bind_ext.
    2:{ intros l' w1. apply bind_ext; [|reflexivity]. apply IH; [|exact Hh]. intros y Hy. apply Hf. now right. }
    pose proof Hh0 as (_ & _ & _ & ->). rewrite (head_prefix c s idx Hh).
    assert (Hn : forall w1, hNode f h a w1 = Node s0 w1) by (intros w1; apply IHa; apply (Hf (SShard s0)); now left).
    assert (Rec : forall k : link -> M world link, bind (do nd <- hNode f h a ;; do _ <- dserv_add nd None ;; ret (make_link [] nd)) k w = bind (do nd <- Node s0 ;; do _ <- dserv_add nd None ;; ret (make_link [] nd)) k w).
    { intros k. apply bind_ext; [|reflexivity]. apply bind_ext; [apply Hn|reflexivity]. }
    destruct (isValueNode s0) eqn:Ei; [|apply Rec]. unfold hval in Hv0. destruct (c_val c0) as [la|], (s_val s0) as [v|]; try contradiction; [|apply Rec]. destruct Hv0 as (_ & l' & El & Ez & Et & _). rewrite El. unfold bind, ret. now rewrite Ez, Et.
Qed.

(** ** The bound *)
Lemma height_bound {TG : Tag} h m : (forall la l, nth_error (h_links h) la = Some l -> (nheight (lto l) <= m)%nat) ->
  (forall a s F G K, hrep h a s F G K -> (sheight s <= length F + m)%nat) /\
  (forall xs ss F G K, hreps h xs ss F G K -> (fold_right (fun x k => Nat.max (sh_height x) k) O ss <= length F + m)%nat).
Proof.
  intros Hm. apply hrep_both.
  - intros a c s F G0 G K _ _ _ _ IH. rewrite sheight_unfold. cbn [length]. lia.
  - cbn. lia.
  - intros la l xs ss F G K Hl _ IH. cbn [fold_right sh_height]. pose proof (Hm la l Hl). lia.
  - intros a s xs ss F1 G1 K1 F2 G2 K2 _ IH1 _ IH2. cbn [fold_right sh_height]. rewrite app_length. lia.
Qed.
Lemma max_in (ls : list link) : forall i l, nth_error ls i = Some l -> (nheight (lto l) <= fold_right (fun l m => Nat.max (nheight (lto l)) m) O ls)%nat.
Proof. induction ls as [|x ls IH]; intros [|i] l H; try discriminate; cbn [fold_right nth_error] in *; [injection H as ->; lia|]. pose proof (IH _ _ H). lia. Qed.
Lemma hbound_ok {TG : Tag} h a s F G K : owns h a s F G K -> (sheight s < hbound h)%nat.
Proof.
  intros O. pose proof (proj1 (height_bound h _ (max_in (h_links h))) _ _ _ _ _ (ow_rep _ _ _ _ _ _ O)) as H. unfold hbound.
  assert (length F <= length (h_shards h))%nat; [|lia]. destruct (owns_bounds _ _ _ _ _ _ O) as (BF & _ & _). rewrite <- (seq_length (length (h_shards h)) 0). apply NoDup_incl_length; [exact (ow_F _ _ _ _ _ _ O)|]. intros z Hz. apply in_seq. specialize (BF z Hz). lia.
Qed.

(** ** More fuel for ForEachLink *)
Lemma walk_more f w cb : forall f' st, (f <= f')%nat -> fst (walkTrie f w cb st) <> Fuel -> walkTrie f' w cb st = walkTrie f w cb st.
Proof.
  induction f as [|f IH]; intros f' st Hf H; [exfalso; apply H; reflexivity|]. destruct f' as [|f']; [lia|]. apply le_S_n in Hf. rewrite !walk_eq in *. revert H. generalize (length (s_slots (fst st))) 0. intros n. revert st.
  induction n as [|n IHn]; intros [s acc] i H; [reflexivity|]. cbn [weach] in *. destruct (get_child w i s) as [[c|e| |] s1]; try reflexivity. destruct (if isValueNode c then s_val c else None) as [v|].
  - destruct (cb acc _); [reflexivity|]. now apply IHn.
  - assert (E : walkTrie f' w cb (c, acc) = walkTrie f w cb (c, acc)). { apply IH; [exact Hf|]. intros E. destruct (walkTrie f w cb (c, acc)) as [r [c' acc']]. cbn [fst] in E. subst r. apply H. reflexivity. }
    rewrite E. destruct (walkTrie f w cb (c, acc)) as [[u|e| |] [c' acc']]; try reflexivity. now apply IHn.
Qed.
Theorem foreach_sim {TG : Tag} w cb hcb h a s F G K : cbrel hcb cb -> owns h a s F G K -> fst (ForEachLink w cb (s, [])) <> Fuel ->
  sim (fun _ _ st st' => winv h a F G K [] (fst st) (snd st) (fst st') (snd st')) (fun st st' => winv h a F G K [] (fst st) (snd st) (fst st') (snd st')) (ForEachLink w cb (s, [])) (hForEachLink w hcb a (h, [])).
Proof.
  intros Hcb O Hf. unfold ForEachLink in *. cbn [fst] in *. rewrite <- (walk_more (sheight s) w cb (hbound h) (s, [])); [|pose proof (hbound_ok _ _ _ _ _ _ O); lia|exact Hf]. unfold hForEachLink. cbn [fst]. apply (walk_all (hbound h) TG w cb hcb Hcb h a s F G K [] []); [exact O|constructor|intros z []].
Qed.
