(** The same tree published twice, into different stores and in different orders. *)
From Verif Require Import Base Pb FSNode Dag DagProofs Builder Balanced Trickle Importer HashBits Bitfield SpecHash HashProofs Hamt SpecHamt HamtExec HamtNode HamtWitness Walk WalkWitness Directory SpecDir DirExec DirBasic DirectoryProofs DirWitness Resolve SpecResolve UnixFile FileWitness SpecTree TreeProofs TreeWitness SpecRoots RootsProofs.

(** Chunks of two bytes. *)
Fixpoint pairs (c : bytes) : list bytes :=
  match c with
  | a :: b :: r => [a; b] :: pairs r
  | [a] => [[a]]
  | [] => []
  end.
Lemma pairs_concat : forall c, concat (pairs c) = c.
Proof.
  assert (H : forall m c, (length c <= m)%nat -> concat (pairs c) = c); [|intros c; exact (H _ c (le_n _))].
  induction m as [|m IH]; intros [|a [|b c]] Hl; cbn [length] in Hl; try reflexivity; try lia. cbn [pairs concat app]. do 2 f_equal. apply IH. lia.
Qed.
Notation ingests6 := (ingests hash8 256 false small pairs v0prefix None 50).
Notation ingests6_all := (ingests_all hash8 256 false small pairs v0prefix None 50).
Definition addsb (h : list dobs) : bool := forallb (fun o => match q_op o with DRemove _ => false | _ => true end) h.
Lemma addsb_spec h : addsb h = true -> no_removal h.
Proof. unfold addsb, no_removal. rewrite forallb_forall, Forall_forall. intros H o Ho. specialize (H o Ho). now destruct (q_op o). Qed.
Lemma adds_names nodes : forall h, map q_op h = map (fun x => DAdd (fst x) (snd x)) nodes -> Forall (fun o => q_res o = Ok VUnit) h -> added_names h = map (@fst bytes node) nodes.
Proof.
  induction nodes as [|[k nd] nodes IH]; intros [|o h] E F; try discriminate; [reflexivity|]. cbn [map fst snd] in E. injection E as E1 E2. inversion F as [|? ? F1 F2]; subst. unfold added_names. cbn [flat_map map fst]. rewrite E1, F1. cbn [app]. f_equal. now apply IH.
Qed.
(** Publishing a directory by computation. *)
Lemma ingest_dir kids w nodes w1 cs : ingests6_all kids w nodes w1 -> dfeasible w1 cs = true -> named_dops (map snd cs) -> forallb (fun c => fst c =? 50) cs = true -> map snd cs = map (fun x => DAdd (fst x) (snd x)) nodes -> NoDup (map fst nodes) ->
  allok (fst (dpath w1 cs)) = true -> addsb (fst (dpath w1 cs)) = true -> is_ok (fst (dGetNode (dstate w1 cs))) = true -> is_ok (fst (dserv_add (droot w1 cs) None (dworld w1 cs))) = true ->
  ingests6 (TDir kids) w (droot w1 cs) (snd (dserv_add (droot w1 cs) None (dworld w1 cs))).
Proof.
  intros Hp Hf Hn HT Ho Hd Ha Hb Hg Hs. unfold droot, dworld in *. pose proof (dpath_run false w1 cs Hf) as Hr. assert (Hq : map q_op (fst (dpath w1 cs)) = map snd cs).
  { unfold dpath, dfeasible in *. destruct (dfollow hash8 256 cs (dnew, w1)) as [[h st]|] eqn:E; [|discriminate]. eapply dfollow_ops, E. }
  destruct (dstate w1 cs) as [x1 w2]. destruct (dGetNode (x1, w2)) as [[nd| | |] [x2 w3]] eqn:Eg; try discriminate. cbn [fst snd] in *. destruct (dserv_add (seal nd) None w3) as [[[]| | |] w4] eqn:Es; try discriminate. cbn [fst snd].
  apply allok_spec in Ha. eapply ing_dir; [exact Hp|exact dnew_ok|exact Hn| |exact Hr| | |exact Eg|].
  - apply Forall_forall. intros c Hc. rewrite forallb_forall in HT. now apply Z.eqb_eq, HT.
  - apply adding_keeps_new; [now apply addsb_spec|]. rewrite (adds_names nodes); [assumption|rewrite Hq; exact Ho|assumption].
  - intros k. rewrite (adds_contents nodes _ dempty); [|rewrite Hq; exact Ho|assumption]. rewrite puts_assoc by assumption. now destruct (assoc k nodes).
  - unfold dserv_add in Es |- *. rewrite seal_idem in Es. exact Es.
Qed.
Definition content6 : bytes := [x61; x62; x63; x64; x65; x66; x67].
Definition kids6 : list (bytes * tree) := [(nc, TLink [x2f; x61])].
Definition tree6a : tree := TDir [(na, TFile content6); (nb, TDir kids6)].
Definition tree6b : tree := TDir [(nb, TDir kids6); (na, TFile content6)].
Definition files6 (w : world) := balanced_import 5 small false (map EvData (pairs content6)) w.
Definition link6 (w : world) : world := snd (dserv_add lnode None w).
Definition hin6 : list (Z * dop) := [(50, DAdd nc lnode)].
Definition in6 (w : world) : node := droot (link6 w) hin6.
Definition win6 (w : world) : world := snd (dserv_add (in6 w) None (dworld (link6 w) hin6)).
(** First the file, then the directory, into an empty store. *)
Definition store6a : world := win6 (snd (files6 good_store)).
Definition hist6a : list (Z * dop) := [(50, DAdd na (nodeof (files6 good_store))); (50, DAdd nb (in6 (snd (files6 good_store))))].
Definition root6a : node := droot store6a hist6a.
Definition end6a : world := snd (dserv_add root6a None (dworld store6a hist6a)).
(** The other way round, into the store that is left. *)
Definition store6b : world := snd (files6 (win6 end6a)).
Definition hist6b : list (Z * dop) := [(50, DAdd nb (in6 end6a)); (50, DAdd na (nodeof (files6 (win6 end6a))))].
Definition root6b : node := droot store6b hist6b.
Definition end6b : world := snd (dserv_add root6b None (dworld store6b hist6b)).

Lemma file6 w root w' : files6 w = (Ok root, w') -> ingests6 (TFile content6) w root w'.
Proof. intros E. eapply ing_balanced; [reflexivity|exact E]. Qed.
Lemma inner6 w : is_ok (fst (dserv_add lnode None w)) = true -> dfeasible (link6 w) hin6 = true -> allok (fst (dpath (link6 w) hin6)) = true -> addsb (fst (dpath (link6 w) hin6)) = true -> is_ok (fst (dGetNode (dstate (link6 w) hin6))) = true -> is_ok (fst (dserv_add (in6 w) None (dworld (link6 w) hin6))) = true ->
  ingests6 (TDir kids6) w (in6 w) (win6 w).
Proof.
  intros H1 H2 H3 H4 H5 H6. assert (E : dserv_add lnode None w = (Ok tt, link6 w)). { unfold link6. destruct (dserv_add lnode None w) as [[[]| | |] w']; try discriminate; reflexivity. }
  apply (ingest_dir kids6 w [(nc, lnode)] (link6 w) hin6); try assumption; try reflexivity.
  - econstructor; [|constructor]. apply (ing_link hash8 256 false small pairs v0prefix None 50 [x2f; x61] _ w (link6 w)); [reflexivity|exact link_data|exact E].
  - repeat constructor; discriminate.
  - repeat constructor; cbn; intuition discriminate.
Qed.
Lemma ing6a : ingests6 tree6a good_store root6a end6a.
Proof.
  assert (E1 : files6 good_store = (Ok (nodeof (files6 good_store)), snd (files6 good_store))) by (vm_compute; reflexivity).
  assert (P1 := file6 _ _ _ E1).
  assert (P2 : ingests6 (TDir kids6) (snd (files6 good_store)) (in6 (snd (files6 good_store))) store6a) by (apply inner6; vm_compute; reflexivity).
  apply (ingest_dir [(na, TFile content6); (nb, TDir kids6)] good_store [(na, nodeof (files6 good_store)); (nb, in6 (snd (files6 good_store)))] store6a hist6a); [eapply ing_cons; [exact P1|eapply ing_cons; [exact P2|apply ing_nil]]| | | | | | | | | ]; clear;
  [vm_compute; reflexivity|repeat constructor; discriminate|reflexivity|unfold hist6a; cbn [map fst snd]; reflexivity|change (NoDup [na; nb]); repeat constructor; cbn; intuition discriminate|vm_compute; reflexivity|vm_compute; reflexivity|vm_compute; reflexivity|vm_compute; reflexivity].
Qed.
Lemma ing6b : ingests6 tree6b end6a root6b end6b.
Proof.
  assert (E1 : files6 (win6 end6a) = (Ok (nodeof (files6 (win6 end6a))), store6b)) by (vm_compute; reflexivity).
  assert (P1 := file6 _ _ _ E1).
  assert (P2 : ingests6 (TDir kids6) end6a (in6 end6a) (win6 end6a)) by (apply inner6; vm_compute; reflexivity).
  apply (ingest_dir [(nb, TDir kids6); (na, TFile content6)] end6a [(nb, in6 end6a); (na, nodeof (files6 (win6 end6a)))] store6b hist6b); [eapply ing_cons; [exact P2|eapply ing_cons; [exact P1|apply ing_nil]]| | | | | | | | | ]; clear;
  [vm_compute; reflexivity|repeat constructor; discriminate|reflexivity|unfold hist6b; cbn [map fst snd]; reflexivity|change (NoDup [nb; na]); repeat constructor; cbn; intuition discriminate|vm_compute; reflexivity|vm_compute; reflexivity|vm_compute; reflexivity|vm_compute; reflexivity].
Qed.
Lemma same_refl : forall t, same_tree t t.
Proof.
  apply tree_rect2; [constructor|constructor|]. intros kids IH. constructor; [intros k; reflexivity|]. intros k t1 t2 E1 E2. assert (t1 = t2) by congruence. subst t2. clear E2. revert E1.
  induction kids as [|[k' x] kids IHk]; [discriminate|]. cbn [map snd] in IH. inversion IH; subst. cbn [assoc]. destruct (bytes_eqb k' k); [intros E; injection E as <-; assumption|apply IHk; assumption].
Qed.
Lemma same6 : same_tree tree6a tree6b.
Proof.
  constructor.
  - intros k. cbn [assoc]. destruct (bytes_eqb na k) eqn:E1, (bytes_eqb nb k) eqn:E2; split; congruence.
  - intros k t1 t2. cbn [assoc]. destruct (bytes_eqb na k) eqn:E1, (bytes_eqb nb k) eqn:E2; try discriminate.
    + apply bytes_eqb_eq in E1, E2. subst k. discriminate.
    + intros H1 H2. injection H1 as <-. injection H2 as <-. constructor.
    + intros H1 H2. injection H1 as <-. injection H2 as <-. apply same_refl.
Qed.
Lemma case6 : (forall c, concat (pairs c) = c) /\ ingests6 tree6a good_store root6a end6a /\ ingests6 tree6b end6a root6b end6b /\ same_tree tree6a tree6b /\
  sharded (fst (dstate store6a hist6a)) = true /\ sharded (fst (dstate (link6 end6a) hin6)) = false /\ (1 < length (node_links (nodeof (files6 good_store))))%nat.
Proof. split; [exact pairs_concat|]. split; [exact ing6a|]. split; [exact ing6b|]. split; [exact same6|]. split; [vm_compute; reflexivity|]. split; [vm_compute; reflexivity|]. apply Nat.ltb_lt. vm_compute. reflexivity. Qed.
Lemma end6_reach : ~ unreachable end6b.
Proof. intros [x H]. assert (E : w_getok end6b x = true) by (vm_compute; reflexivity). congruence. Qed.
Lemma wn6 : well_named tree6a.
Proof. repeat (constructor; cbn; try (intuition discriminate)). Qed.
Lemma pub6 : publishes hash8 256 tree6a good_store root6a end6a /\ publishes hash8 256 tree6b end6a root6b end6b.
Proof. split; eapply (ingest_publishes hash8 256 false small pairs v0prefix None 50 pairs_concat); [exact ing6a|exact ing6b]. Qed.
Lemma roots6 : root6a = root6b.
Proof. vm_compute. reflexivity. Qed.
Lemma common6 : publishes hash8 256 tree6a good_store root6a end6b /\ publishes hash8 256 tree6b end6a root6a end6b /\ ~ unreachable end6b /\ well_named tree6a /\ well_named tree6b /\ tree6a <> tree6b.
Proof.
  destruct pub6 as [P1 P2]. assert (X : wext end6a end6b) by (eapply (publish_part hash8 8 256); [lia|exact hash8_len|exact width256|exact P2]).
  split; [eapply pub_more; eauto|]. split; [rewrite roots6; exact P2|]. split; [exact end6_reach|]. split; [exact wn6|]. split; [|discriminate]. repeat (constructor; cbn; try (intuition discriminate)).
Qed.
Lemma adding6 : no_removal (fst (dpath store6a hist6a)) /\ NoDup (added_names (fst (dpath store6a hist6a))) /\ added_names (fst (dpath store6a hist6a)) = [na; nb].
Proof.
  assert (E : added_names (fst (dpath store6a hist6a)) = [na; nb]) by (vm_compute; reflexivity). rewrite E. split; [apply addsb_spec; vm_compute; reflexivity|]. split; [|reflexivity].
  repeat constructor; cbn; intuition discriminate.
Qed.
