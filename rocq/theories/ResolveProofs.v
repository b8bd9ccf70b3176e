(** Path resolution and directories. *)
From Verif Require Import Base Pb FSNode Dag DagProofs Builder HashBits Bitfield SpecHash HashProofs Hamt SpecHamt HamtExec HamtWitness Walk WalkProofs WalkDir WalkWitness HamtAbs Directory SpecDir DirExec DirBasic DirectoryProofs DirFacts Resolve SpecResolve SpecCodecProofs.

(** Agreement with Find, on every node that NewDirectoryFromNode accepts. *)
Lemma resolve_find hash w nd x (k : bytes) (rest : list bytes) : NewDirectoryFromNode nd = Ok x ->
  match ResolveUnixfsOnce hash w nd (k :: rest) with
  | Ok (Some l, r) => r = rest /\ fst (dFind hash k (x, w)) = dserv_get w (lto l)
  | Ok (None, r) => fst (dFind hash k (x, w)) = Panic
  | Err ELinkNotFound => fst (dFind hash k (x, w)) = Err ENotExist \/ fst (dFind hash k (x, w)) = Err ELinkNotFound
  | Err e => fst (dFind hash k (x, w)) = Err e
  | Panic => fst (dFind hash k (x, w)) = Panic
  | Fuel => fst (dFind hash k (x, w)) = Fuel
  end.
Proof.
  destruct nd as [p d|p d ls]; [discriminate|]. cbn [NewDirectoryFromNode ResolveUnixfsOnce]. destruct (FSNodeFromBytes d) as [fsn|e| |]; try discriminate. cbn [rbind].
  destruct (getType fsn =? TDirectory) eqn:E1.
  - intros H. injection H as <-. assert (E2 : getType fsn =? THAMTShard = false) by (apply Z.eqb_eq in E1; rewrite E1; reflexivity). rewrite E2. cbn [ResolveLink dFind fst]. unfold bFind. unfold newBasicDirectoryFromNode. cbn [b_links]. destruct (GetNodeLink k ls); [auto|now left].
  - destruct (getType fsn =? THAMTShard); [|discriminate]. intros H. destruct (NewHamtFromDag (NProto p d ls)) as [s|e| |]; try discriminate. cbn [rmap] in H. injection H as <-. cbn [rbind dFind]. unfold hFind. cbn [h_shard h_change].
    destruct (Find hash w k s) as [[[l|]|e| |] s1]; cbn [rmap fst]; auto. destruct e; auto.
Qed.

Section Saved.
  Variables (hash : bytes -> bytes) (n : nat) (W : Z).
  Hypothesis Hn : (2 <= n)%nat.
  Hypothesis Hh : forall k, length (hash k) = n.
  Hypothesis Hv : valid_width W.

  Lemma saved_dir b w nd d D : FolderPBData = Ok D -> saved hash W b w nd d -> exists x, NewDirectoryFromNode nd = Ok x /\ dgood hash n W (eq (proto_prefix b)) D d (x, w).
  Proof using Hn Hh Hv.
    intros HD (x0 & w0 & x1 & w1 & nd0 & Hr & Hg & -> & Hx).
    pose proof (reached_good hash n W b Hn Hh Hv D HD _ _ Hr) as [H0 G]. cbn [fst snd] in G. destruct x0 as [bb|h].
    - cbn [dGetNode] in Hg. injection Hg as <- <- <-. destruct (basic_reload _ D d bb (folder_is_dir D HD) G) as (b' & E & Hb'). exists (DBasic b'). split; [exact E|]. split; assumption.
    - cbn [dGetNode] in Hg. pose proof (good_node hash n W _ Hh (HPb b) d (h_shard h) w0 G) as S. destruct (Node (h_shard h) w0) as [r w']. injection Hg as -> <- ->. destruct S as [_ (_ & _ & Es & p & db & ls & fsn & s' & -> & E1 & E2 & E3 & S)].
      rewrite Es. cbn [NewDirectoryFromNode]. rewrite E1. cbn [rbind]. rewrite E2. change (THAMTShard =? TDirectory) with false. change (THAMTShard =? THAMTShard) with true. cbv iota. rewrite E3. eexists. split; [reflexivity|]. split; [assumption|]. cbn [fst snd h_shard]. eapply good_world; eauto.
  Qed.
  Lemma resolve_saved b w nd d (k : bytes) (rest : list bytes) : saved hash W b w nd d -> k <> [] ->
    match ResolveUnixfsOnce hash w nd (k :: rest) with
    | Ok (Some l, r) => r = rest /\ d k = Some (lsize l, lto l)
    | Err e => d k = None /\ (e = ENotExist \/ e = ELinkNotFound) \/ e = EFetch /\ unreachable w
    | _ => False
    end.
  Proof using Hn Hh Hv.
    intros Hs Hk. destruct folder_data as [D HD]. destruct (saved_dir b w nd d D HD Hs) as (x & E & H0 & G). cbn [fst snd] in G.
    destruct nd as [p dd|p dd ls]; [discriminate|]. cbn [NewDirectoryFromNode ResolveUnixfsOnce] in *. destruct (FSNodeFromBytes dd) as [fsn|e| |]; try discriminate. cbn [rbind] in E.
    destruct (getType fsn =? TDirectory) eqn:E1.
    - injection E as <-. assert (E2 : getType fsn =? THAMTShard = false) by (apply Z.eqb_eq in E1; rewrite E1; reflexivity). rewrite E2. cbn [ResolveLink].
      pose proof (get_spec d ls k (bg_list _ _ _ _ G)) as S. destruct (GetNodeLink k ls) as [l|]; [|left; auto]. split; [reflexivity|]. apply S.
    - destruct (getType fsn =? THAMTShard); [|discriminate]. destruct (NewHamtFromDag (NProto p dd ls)) as [s|e| |]; try discriminate. cbn [rmap] in E. injection E as <-. cbn [rbind].
      pose proof (good_find hash n W _ Hn Hh (HPb b) d s w k G Hk) as F. destruct (Find hash w k s) as [[[l|]|e| |] s1]; cbn [rmap fst]; destruct F as [_ F]; try contradiction; [split; [reflexivity|exact F]|]. destruct F as [[-> F]|[-> F]]; [left; auto|right; auto].
  Qed.
  Lemma resolve_path w nd path m : ~ unreachable w -> leads hash W w nd path m -> resolve_all hash w (length path) nd path = Ok m.
  Proof using Hn Hh Hv.
    intros Hu H. induction H as [x|b nd d k e rest m Hs Hk Hd He Hl IH]; [reflexivity|]. cbn [length resolve_all].
    pose proof (resolve_saved b w nd d k rest Hs Hk) as R. destruct (ResolveUnixfsOnce hash w nd (k :: rest)) as [[[l|] r]|e1| |]; try contradiction.
    - destruct R as [-> R]. assert (Ee : e = (lsize l, lto l)) by congruence. subst e. cbn [rbind fst snd] in *. rewrite He. cbn [rbind]. exact IH.
    - destruct R as [[R _]|[_ R]]; [congruence|contradiction].
  Qed.
  (** A missing name on the way. *)
  Lemma resolve_missing w nd path m b d (k : bytes) (rest : list bytes) : ~ unreachable w -> leads hash W w nd path m -> saved hash W b w m d -> k <> [] -> d k = None ->
    resolve_all hash w (length path + S (length rest)) nd (path ++ k :: rest) = Err ENotExist \/ resolve_all hash w (length path + S (length rest)) nd (path ++ k :: rest) = Err ELinkNotFound.
  Proof using Hn Hh Hv.
    intros Hu H Hm Hk Hd. induction H as [x|b' nd d' k' e rest' m Hs' Hk' Hd' He Hl IH].
    - cbn [length plus app resolve_all]. pose proof (resolve_saved b w x d k rest Hm Hk) as R. destruct (ResolveUnixfsOnce hash w x (k :: rest)) as [[[l|] r]|e1| |]; try contradiction.
      + destruct R as [_ R]. congruence.
      + destruct R as [[_ [->| ->]]|[_ R]]; [now left|now right|contradiction].
    - cbn [length plus app resolve_all]. pose proof (resolve_saved b' w nd d' k' (rest' ++ k :: rest) Hs' Hk') as R. destruct (ResolveUnixfsOnce hash w nd (k' :: rest' ++ k :: rest)) as [[[l|] r]|e1| |]; try contradiction.
      + destruct R as [-> R]. assert (Ee : e = (lsize l, lto l)) by congruence. subst e. cbn [rbind fst snd] in *. rewrite He. cbn [rbind]. now apply IH.
      + destruct R as [[R _]|[_ R]]; [congruence|contradiction].
  Qed.
End Saved.

(** Nodes that are not sharded directories, unixfs or not: the first link with the name. *)
Lemma get_first k ls : match GetNodeLink k ls with
  | Some l => lname l = k /\ exists a b, ls = a ++ l :: b /\ Forall (fun x => lname x <> k) a
  | None => Forall (fun x => lname x <> k) ls
  end.
Proof.
  induction ls as [|x ls IH]; cbn [GetNodeLink]; [constructor|]. unfold GetNodeLink in *. cbn [find]. destruct (bytes_eqb (lname x) k) eqn:E.
  - apply bytes_eqb_eq in E. split; [assumption|]. exists [], ls. split; [reflexivity|constructor].
  - assert (Hx : lname x <> k) by (intros H; rewrite H, bytes_eqb_refl in E; discriminate). destruct (find _ ls) as [l|].
    + destruct IH as (H1 & a & b & -> & H2). split; [assumption|]. exists (x :: a), b. split; [reflexivity|]. now constructor.
    + now constructor.
Qed.
Lemma resolve_plain hash w p d ls (k : bytes) (rest : list bytes) : (forall fsn, FSNodeFromBytes d = Ok fsn -> getType fsn <> THAMTShard) ->
  match ResolveUnixfsOnce hash w (NProto p d ls) (k :: rest) with
  | Ok (Some l, r) => r = rest /\ lname l = k /\ exists a b, ls = a ++ l :: b /\ Forall (fun x => lname x <> k) a
  | Err e => e = ELinkNotFound /\ Forall (fun x => lname x <> k) ls
  | _ => False
  end.
Proof.
  intros H. assert (E : ResolveUnixfsOnce hash w (NProto p d ls) (k :: rest) = ResolveLink (NProto p d ls) (k :: rest)).
  { cbn [ResolveUnixfsOnce]. destruct (stable_total d) as [(fs & b & E & _)|[e E]]; rewrite E; [|reflexivity]. specialize (H fs E). apply Z.eqb_neq in H. now rewrite H. }
  rewrite E. cbn [ResolveLink]. pose proof (get_first k ls) as G. destruct (GetNodeLink k ls); [split; [reflexivity|assumption]|auto].
Qed.
Lemma resolve_raw hash w p d names : ResolveUnixfsOnce hash w (NRaw p d) names = Err ELinkNotFound.
Proof. reflexivity. Qed.
