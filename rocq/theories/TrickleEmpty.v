(** Trickle import of an empty source. *)
From Verif Require Import Base Pb FSNode Dag Builder Balanced Trickle Importer SpecFile ImportProofs.

Definition drained (d : db) : Prop := db_spl d = [] /\ db_next d = None /\ db_err d = None.
Lemma done_drained d : drained d -> Done d = (Ok true, d).
Proof. intros (A & B & C). unfold Done, prepareNext. rewrite B, C, A, C, B. reflexivity. Qed.
Lemma fill_drained mk k n d : drained d -> fill_loop mk k (n, d) = (Ok tt, (n, d)).
Proof.
  intros H. destruct k; cbn [fill_loop fst snd]; (destruct (_ <? _); [|reflexivity]); unfold bind, on_db; cbn [fst snd]; rewrite (done_drained d H); reflexivity.
Qed.
Lemma depth_drained fill k z y n d : drained d -> depth_loop fill k z y (n, d) = (Ok tt, (n, d)).
Proof. intros H. destruct k; cbn [depth_loop]; (destruct (_ || _); [|reflexivity]); unfold bind, on_db; cbn [fst snd]; rewrite (done_drained d H); reflexivity. Qed.
Lemma trickle_empty fuel dbp fi w root w' : trickle_import fuel dbp fi [] w = (Ok root, w') -> exists d, root = NProto (proto_prefix (pr_builder dbp)) d [].
Proof.
  unfold trickle_import, build. destruct (New dbp fi [] w) as [d| | |] eqn:En; try discriminate. 
  assert (D : drained d /\ db_builder d = pr_builder dbp) by (unfold New in En; destruct (_ && _); try discriminate; injection En as <-; repeat split).
  destruct D as [D Eb]. destruct fuel as [|f]; [discriminate|]. unfold Layout, new_subtree, with_new. cbn [fillTrickleRec]. unfold bind.
  unfold FillNodeLayer, bind. rewrite (fill_drained _ _ _ _ D). unfold commit at 1. cbn [fst snd].
  destruct (Commit _) as [n1| | |] eqn:E1; try discriminate. rewrite (depth_drained _ _ _ _ _ _ D). unfold commit. cbn [fst snd]. destruct (Commit n1) as [n2| | |] eqn:E2; try discriminate.
  unfold Add, ret. cbn [fst snd]. destruct (dserv_add _ _ _) as [[] w1]; try discriminate. intros H. injection H as <- _.
  assert (X1 : f_prefix n2 = proto_prefix (pr_builder dbp) /\ f_links n2 = []).
  { unfold Commit in E1, E2. destruct (GetBytes _) as [b1| | |] in E1; try discriminate. injection E1 as <-. cbn [f_file f_prefix f_links rbind] in E2. destruct (GetBytes _) as [b2| | |] in E2; try discriminate. injection E2 as <-. cbn. rewrite Eb. auto. }
  destruct X1 as [X1 X2]. unfold GetDagNode. rewrite X1, X2. cbn. eauto.
Qed.
