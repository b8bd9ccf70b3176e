(** The sizes of the model are those of the encoded blocks. *)
From Verif Require Import Base Pb Dag DagProofs Builder SpecFile SpecBlock.

Section Sizes.
Variable digest : node -> bytes.
Hypothesis Hd : forall m, zlen (digest m) = Z.max 0 (p_mhlen (node_prefix m)).

Lemma zlen_field t b : zlen (field t b) = 1 + vlen (zlen b) + zlen b.
Proof. unfold field, vlen. rewrite zlen_cons, zlen_app. lia. Qed.
Lemma cid_exact m : zlen (enc_cid (node_prefix m) (digest m)) = cid_len (node_prefix m).
Proof. unfold enc_cid, cid_len, vlen. destruct (p_version (node_prefix m) =? 0); rewrite ?zlen_cons, ?zlen_app, Hd; lia. Qed.
Lemma link_exact l : zlen (enc_link digest l) = link_len l.
Proof.
  unfold enc_link, link_len. rewrite zlen_field.
  assert (I : zlen (field x0a (enc_cid (node_prefix (lto l)) (digest (lto l))) ++ field x12 (lname l) ++ x18 :: varint (lsize l)) =
    (1 + vlen (cid_len (node_prefix (lto l))) + cid_len (node_prefix (lto l))) + (1 + vlen (zlen (lname l)) + zlen (lname l)) + (1 + vlen (lsize l))).
  { rewrite !zlen_app, zlen_cons, !zlen_field, cid_exact. fold (vlen (lsize l)). lia. }
  rewrite I. reflexivity.
Qed.
Lemma links_exact ls : zlen (concat (map (enc_link digest) ls)) = sumZ (map link_len ls).
Proof. induction ls as [|l ls IH]; [reflexivity|]. cbn [map concat sumZ fold_right]. rewrite zlen_app, link_exact, IH. reflexivity. Qed.
Lemma block_exact n : zlen (enc_block digest n) = block_len n.
Proof.
  destruct n as [p d|p d ls]; cbn [enc_block block_len]; [reflexivity|]. rewrite zlen_app, links_exact. f_equal.
  destruct d as [|x d]; [reflexivity|]. rewrite zlen_field. assert (zlen (x :: d) <> 0) by (rewrite zlen_cons; pose proof (zlen_nonneg d); lia). destruct (zlen (x :: d) =? 0) eqn:E; lia.
Qed.
Lemma cumulative_exact n : cumulative n = zlen (concat (all_blocks digest n)).
Proof.
  induction n as [p d|p d ls IH] using node_ind'; cbn [cumulative all_blocks concat]; rewrite zlen_app, block_exact; [reflexivity|]. f_equal. induction IH as [|l ls H _ IH']; [reflexivity|].
  cbn [map concat fold_right]. rewrite concat_app, zlen_app, H, IH'. reflexivity.
Qed.
Lemma size_exact root : tsizes_exact root -> forall m l, reach root m -> In l (node_links m) -> lsize l = mod64 (zlen (concat (all_blocks digest (lto l)))).
Proof. intros H m l R I. rewrite <- cumulative_exact. exact (H m l R I). Qed.
End Sizes.
