(** Proofs about the iterator over a directory. *)
From Verif Require Import Base Pb FSNode Dag DagProofs Builder HashBits Bitfield SpecHash HashProofs Hamt SpecHamt HamtExec Walk WalkProofs WalkDir HamtAbs Directory SpecDir DirExec DirBasic DirectoryProofs DirFacts Reader SpecFile SpecReader ReaderRun ReaderProofs ReaderProofs2 FSNodeProofs Resolve SpecResolve ResolveProofs UnixFile SpecIter.

Section Iter.
  Variables (w : world) (mayc : bool) (L : list link) (R : res unit).
  Notation yields := (yields w).
  Notation iterated := (iterated w mayc L R).

  Definition result_of (r : res unit) : option (option err) := match r with Ok _ => Some None | Err x => Some (Some x) | _ => None end.
  Definition chan (t : iter) (todo : list link) : Prop :=
    match i_prod t with
    | PSend td r => td = todo /\ r = R /\ i_ebuf t = None /\ i_eclosed t = false /\ i_errch t = true /\ i_closed t = false
    | p => todo = [] /\ (exists e, result_of R = Some e /\ (i_errch t = true /\ i_ebuf t = Some e \/ i_errch t = false /\ i_ebuf t = None /\ (e = None \/ i_err t <> None))) /\ (i_closed t = true <-> p = PDone)
    end /\ (i_files t = false -> i_closed t = true /\ i_buf t = []).
  Definition running (t : iter) (done : list link) : Prop :=
    i_err t = None /\ exists os fs, i_obs t = os ++ fs /\ Forall2 yields done os /\ Forall (finishes None) fs /\ (fs <> [] -> i_files t = false /\ i_errch t = false).
  Definition failed (t : iter) : Prop :=
    exists x done rest os fs, i_err t = Some x /\ i_in t = false /\ L = done ++ rest /\ i_obs t = os ++ fs /\ Forall2 yields done os /\ Forall (finishes (Some x)) fs /\
      (R = Err x \/ (exists l r, rest = l :: r /\ link_file w l = Err x) \/ mayc = true).
  Definition panicked (t : iter) : Prop := i_err t = None /\ i_in t = false /\ alive (i_obs t) = false /\ iterated (i_obs t).
  Definition iinv (t : iter) : Prop := exists done todo, L = done ++ i_buf t ++ todo /\ chan t todo /\ (running t done \/ failed t \/ panicked t).

  Lemma start_inv : iinv (mkIter (PSend L R) [] false None false true true None [] None false []).
  Proof. exists [], L. split; [reflexivity|]. split; [cbn; repeat split; discriminate|]. left. split; [reflexivity|]. exists [], []. split; [reflexivity|]. split; [constructor|]. split; [constructor|congruence]. Qed.

  Lemma alive_app a b : alive (a ++ b) = alive a && alive b.
  Proof. apply forallb_app. Qed.

  Lemma ret_failed t x done rest os fs : L = done ++ rest -> i_obs t = os ++ fs -> Forall2 yields done os -> Forall (finishes (Some x)) fs -> i_err t = Some x ->
    (R = Err x \/ (exists l r, rest = l :: r /\ link_file w l = Err x) \/ mayc = true) -> failed (returns (Ok false) t).
  Proof.
    intros H1 H2 H3 H4 H5 H6. exists x, done, rest, os, (fs ++ [mkNext (Ok false) (i_name t) (i_file t) (i_err t)]). cbn [returns i_err i_in i_obs].
    split; [assumption|]. split; [reflexivity|]. split; [assumption|]. split; [rewrite H2; now rewrite app_assoc|]. split; [assumption|]. split; [|assumption]. apply Forall_app. split; [assumption|]. constructor; [now split|constructor].
  Qed.
  Lemma ret_panic t r done l rest os : i_err t = None -> L = done ++ l :: rest -> i_obs t = os -> Forall2 yields done os -> (link_file w l = Panic /\ r = Panic \/ link_file w l = Fuel /\ r = Fuel) -> panicked (returns r t).
  Proof.
    intros H0 H1 H2 H3 H4. unfold panicked, returns. cbn [i_err i_in i_obs]. split; [assumption|]. split; [reflexivity|]. rewrite H2. split.
    - rewrite alive_app. cbn. destruct H4 as [[_ ->]|[_ ->]]; cbn; apply andb_false_r.
    - eapply it_panic; eauto.
  Qed.
  Lemma open_cases l t done rest : i_files t = true -> i_err t = None -> running t done -> L = done ++ l :: rest -> let u := openLink w l t in running u (done ++ [l]) \/ failed u \/ panicked u.
  Proof.
    intros Hf He (_ & os & fs & Ho & Hy & Hfs & Hn) HL. assert (fs = []) by (destruct fs; [reflexivity|]; destruct (Hn ltac:(discriminate)); congruence). subst fs. rewrite app_nil_r in Ho.
    unfold openLink. cbn zeta. assert (E : link_file w l = let? nd := dserv_get w (lto l) in NewUnixfsFile w nd) by reflexivity.
    assert (F : forall x u, i_obs u = i_obs t -> i_err u = Some x -> link_file w l = Err x -> failed (returns (Ok false) u)).
    { intros x u H1 H2 H3. apply (ret_failed u x done (l :: rest) os []); auto; [now rewrite H1, Ho, app_nil_r|]. right. left. eauto. }
    destruct (dserv_get w (lto l)) as [nd|e| |]; cbn [rbind] in E.
    - destruct (NewUnixfsFile w nd) as [f|e| |]; [left|right; left|right; right..].
      + split; [reflexivity|]. exists (os ++ [mkNext (Ok true) (lname l) (Some f) None]), []. cbn [returns i_obs]. split; [now rewrite app_nil_r, Ho|]. split; [|split; [constructor|congruence]].
        apply Forall2_app; [assumption|]. constructor; [|constructor]. exists f. auto.
      + now apply (F e).
      + eapply ret_panic; eauto.
      + eapply ret_panic; eauto.
    - right. left. now apply (F e).
    - right. right. eapply ret_panic; eauto.
    - right. right. eapply ret_panic; eauto.
  Qed.
  Lemma open_same l t : let u := openLink w l t in i_prod u = i_prod t /\ i_buf u = i_buf t /\ i_closed u = i_closed t /\ i_ebuf u = i_ebuf t /\ i_eclosed u = i_eclosed t /\ i_files u = i_files t /\ i_errch u = i_errch t.
  Proof. unfold openLink. cbn zeta. destruct (dserv_get w (lto l)) as [nd|e| |]; [destruct (NewUnixfsFile w nd)|..]; cbn [returns i_prod i_buf i_closed i_ebuf i_eclosed i_files i_errch]; auto 10. Qed.

  (** Steps that do not concern the client. *)
  Lemma other_trace t u done : i_err u = i_err t -> i_in u = i_in t -> i_obs u = i_obs t -> (i_files t = false -> i_files u = false) -> (i_errch t = false -> i_errch u = false) ->
    running t done \/ failed t \/ panicked t -> running u done \/ failed u \/ panicked u.
  Proof.
    intros E1 E2 E3 E4 E5 [H|[H|H]]; [left|right; left|right; right].
    - destruct H as (H1 & os & fs & H2 & H3 & H4 & H5). split; [congruence|]. exists os, fs. split; [congruence|]. split; [assumption|]. split; [assumption|]. intros H. destruct (H5 H). auto.
    - unfold failed in *. now rewrite E1, E2, E3.
    - unfold panicked in *. now rewrite E1, E2, E3.
  Qed.
  Lemma step_inv t u : iinv t -> istep w mayc t u -> iinv u.
  Proof.
    intros (done & todo & HL & [HC HF] & HT) Hs.
    destruct Hs; cbn [i_prod i_buf i_closed i_ebuf i_eclosed i_files i_errch i_err i_name i_file i_in i_obs] in *.
    - destruct HC as (<- & -> & -> & -> & -> & ->). exists done, r. split; [cbn; rewrite HL, <- !app_assoc; reflexivity|]. split; [split; cbn; [auto 10|intros E; now destruct (HF E)]|].
      eapply other_trace; [..|exact HT]; auto.
    - destruct HC as (E & HR & -> & -> & -> & ->). subst todo. exists done, []. split; [assumption|]. split; [split; cbn; [|assumption]|eapply other_trace; [..|exact HT]; auto]. split; [reflexivity|]. split; [|split; discriminate]. exists None. rewrite <- HR. auto.
    - destruct HC as (E & HR & -> & -> & -> & ->). subst todo. exists done, []. split; [assumption|]. split; [split; cbn; [|assumption]|eapply other_trace; [..|exact HT]; auto]. split; [reflexivity|]. split; [|split; discriminate]. exists (Some x). rewrite <- HR. auto.
    - destruct HC as (E & Hr & Hc). exists done, todo. split; [assumption|]. split; [split; cbn; [|assumption]|eapply other_trace; [..|exact HT]; auto]. split; [assumption|]. split; [assumption|]. split; [intros E1; apply Hc in E1; discriminate|discriminate].
    - destruct HC as (E & Hr & Hc). exists done, todo. split; [assumption|]. split; [split; cbn; [|intros E1; destruct (HF E1); auto]|eapply other_trace; [..|exact HT]; auto]. split; [assumption|]. split; [assumption|]. split; reflexivity.
    - exists done, todo. split; [assumption|]. split; [split; assumption|]. destruct HT as [HT|[HT|HT]]; [left; exact HT| |].
      + destruct HT as (x & d0 & rest & os & fs & E & _). discriminate.
      + destruct HT as (_ & _ & E & _). cbn [i_obs] in E. congruence.
    - exists done, todo. split; [assumption|]. split; [split; assumption|]. destruct HT as [HT|[HT|HT]]; [destruct HT as [E _]; discriminate| |destruct HT as [E _]; discriminate].
      right. left. destruct HT as (y & d0 & rest & os & fs & E & _ & H1 & H2 & H3 & H4 & H5). cbn in E, H2. injection E as <-. now apply (ret_failed _ x d0 rest os fs).
    - exists done, todo. split; [assumption|]. split; [split; assumption|]. destruct HT as [HT|[HT|HT]]; [|destruct HT as (y & d0 & rest & os & fs & _ & E & _); discriminate|destruct HT as (_ & E & _); discriminate].
      left. destruct HT as (He & os & fs & Ho & Hy & Hfs & Hn). split; [exact He|]. cbn in *. exists os, (fs ++ [mkNext (Ok false) nm fl e]). split; [rewrite Ho; now rewrite app_assoc|]. split; [assumption|]. split; [|auto].
      apply Forall_app. split; [assumption|]. constructor; [now split|constructor].
    - destruct HT as [HT|[HT|HT]]; [|destruct HT as (y & d0 & rest & os & fs & _ & E & _); discriminate|destruct HT as (_ & E & _); discriminate].
      assert (HL' : L = (done ++ [l]) ++ buf ++ todo) by (rewrite HL, <- app_assoc; reflexivity).
      exists (done ++ [l]), todo. set (t0 := mkIter p buf c eb ec true ech e nm fl true obs). destruct (open_same l t0) as (E1 & E2 & E3 & E4 & E5 & E6 & E7).
      assert (He : e = None) by exact (proj1 HT). subst e. split; [now rewrite E2|]. split; [|apply (open_cases l t0 done (buf ++ todo)); auto].
      unfold chan. rewrite E1, E2, E3, E4, E5, E6, E7. split; [|discriminate]. cbn [t0 i_prod i_buf i_closed i_ebuf i_eclosed i_files i_errch]. destruct p; [exact HC|..].
      all: destruct HC as (H1 & (x & H2 & H3) & H4); split; [assumption|]; split; [|assumption]; exists x; split; [assumption|]; destruct H3 as [H3|(H5 & H6 & [H7|H7])]; [left; assumption|right; auto|now destruct H7].
    - destruct HT as [HT|[HT|HT]]; [|destruct HT as (y & d0 & rest & os & fs & _ & E & _); discriminate|destruct HT as (_ & E & _); discriminate].
      exists (done ++ [l]), todo. split; [cbn; rewrite HL, <- app_assoc; reflexivity|]. destruct HT as (He & os & fs & Ho & Hy & Hfs & Hn). cbn in He, Ho, Hn. subst e.
      assert (fs = []) by (destruct fs; [reflexivity|]; destruct (Hn ltac:(discriminate)); congruence). subst fs. split; [split; cbn; [|discriminate]|].
      + destruct p; [exact HC|..]. all: destruct HC as (H1 & (x & H2 & H3) & H4); split; [assumption|]; split; [|assumption]; exists x; split; [assumption|]; destruct H3 as [H3|(H5 & H6 & [H7|H7])]; [left; assumption|right; auto|now destruct H7].
      + right. left. apply (ret_failed _ EOther done (l :: buf ++ todo) os []); auto.
    - exists done, todo. split; [assumption|]. split; [split; cbn; [assumption|auto]|]. eapply other_trace; [..|exact HT]; auto.
    - destruct HT as [HT|[HT|HT]]; [|destruct HT as (y & d0 & rest & os & fs & _ & E & _); discriminate|destruct HT as (_ & E & _); discriminate].
      destruct HT as (He & os & fs & Ho & Hy & Hfs & Hn). cbn in He, Ho, Hn. assert (fs = []) by (destruct fs; [reflexivity|]; destruct (Hn ltac:(discriminate)); congruence). subst fs.
      assert (HR : result_of R = Some (Some x)) by (destruct p; [destruct HC as (_ & _ & E & _); discriminate|destruct HC as (_ & (y & E & [[_ E1]|[E1 _]]) & _); congruence..]).
      exists done, todo. split; [assumption|]. split; [split; cbn; [|assumption]|].
      + destruct p; [destruct HC as (_ & _ & E & _); discriminate|..]; destruct HC as (H1 & _ & H4); split; [assumption| |assumption| |assumption|]; split; try assumption; exists (Some x); split; try assumption; right; split; [reflexivity| |reflexivity| |reflexivity|]; split; try reflexivity; right; discriminate.
      + right. left. apply (ret_failed _ x done (buf ++ todo) os []); auto. left. destruct R; cbn in HR; congruence.
    - destruct HT as [HT|[HT|HT]]; [|destruct HT as (y & d0 & rest & os & fs & _ & E & _); discriminate|destruct HT as (_ & E & _); discriminate].
      exists done, todo. split; [assumption|]. split; [split; cbn; [|assumption]|].
      + destruct p; [destruct HC as (_ & _ & E & _); discriminate|..]; destruct HC as (H1 & (y & E & [[_ E1]|[E1 _]]) & H4); try discriminate; injection E1 as <-; (split; [assumption|]; split; [|assumption]; exists None; auto 10).
      + left. destruct HT as (He & os & fs & Ho & Hy & Hfs & Hn). cbn in He, Ho, Hn. split; [reflexivity|]. exists os, fs. split; [assumption|]. split; [assumption|]. split; [assumption|]. intros E. destruct (Hn E). discriminate.
    - exfalso. destruct p; [destruct HC as (_ & _ & _ & E & _); discriminate|destruct HC as (_ & (y & _ & [[_ E1]|[E1 _]]) & _); discriminate..].
  Qed.

  Lemma inv_iterated t : iinv t -> iterated (i_obs t).
  Proof.
    intros (done & todo & HL & [HC HF] & [HT|[HT|HT]]).
    - destruct HT as (He & os & fs & Ho & Hy & Hfs & Hn). rewrite Ho. destruct fs as [|f fs]; [rewrite app_nil_r; eapply it_some; eauto|].
      destruct (Hn ltac:(discriminate)) as [H1 H2]. destruct (HF H1) as [H3 H4].
      assert (todo = [] /\ R = Ok tt) as [-> HR].
      { destruct (i_prod t); [destruct HC as (_ & _ & _ & _ & E & _); congruence|..]; destruct HC as (H5 & (y & E & [[E1 _]|(_ & _ & [E1|E1])]) & _); try congruence; (split; [assumption|]; subst y; destruct R as [[]|?| |]; cbn in E; congruence). }
      rewrite H4 in HL. cbn in HL. rewrite app_nil_r in HL. subst done. now apply it_end.
    - destruct HT as (x & d0 & rest & os & fs & E & _ & H1 & H2 & H3 & H4 & H5). rewrite H2. eapply it_fail; eauto.
    - now destruct HT as (_ & _ & _ & H).
  Qed.
  Lemma steps_inv k s t : iinv s -> isteps w mayc k s t -> iinv t.
  Proof. intros H Hs. revert H. induction Hs as [|k s t u Hs IH H1]; intros H; [assumption|]. exact (step_inv t u (IH H) H1). Qed.

  (** A call of Next that is in progress can go on, if the enumeration does not panic. *)
  Lemma next_goes_on t : iinv t -> i_in t = true -> (exists e, result_of R = Some e) -> exists u, istep w mayc t u.
  Proof.
    intros (done & todo & HL & [HC HF] & HT) Hin [e He]. destruct t as [p buf c eb ec f ech er nm fl inn obs]. cbn [i_prod i_buf i_closed i_ebuf i_eclosed i_files i_errch i_err i_name i_file i_in i_obs] in *. subst inn.
    destruct p as [[|l td] r| | |].
    - destruct HC as (_ & -> & _). destruct R as [[]|x| |]; try discriminate; eexists; constructor.
    - destruct f.
      + destruct buf as [|b buf]; [eexists; apply I_send; cbn; unfold prefetchFiles; lia|eexists; apply I_link].
      + destruct (HF eq_refl) as [H1 H2]. destruct HC as (_ & _ & _ & _ & _ & E). congruence.
    - eexists; constructor.
    - eexists; constructor.
    - destruct HC as (_ & (y & _ & [[-> ->]|(-> & -> & _)]) & H).
      + destruct y; eexists; constructor.
      + destruct f; [|eexists; constructor]. destruct buf; [|eexists; apply I_link]. destruct H as [_ H]. rewrite (H eq_refl) in *. eexists; constructor.
  Qed.

  (** Steps are bounded. *)
  Definition todo_of (p : producer) : nat := match p with PSend ls _ => 3 + 2 * length ls | PCloseErr => 2 | PCloseFiles => 1 | PDone => 0 end.
  Definition flag (b : bool) : nat := if b then 1 else 0.
  Definition ahead (t : iter) : nat := todo_of (i_prod t) + length (i_buf t) + flag (i_files t) + flag (i_errch t).
  Definition paid (t : iter) : nat := 2 * length (i_obs t) + flag (i_in t).
  Lemma step_paid t u : istep w mayc t u -> (ahead u + paid t < ahead t + paid u)%nat.
  Proof.
    intros H. destruct H; unfold ahead, paid; try (cbn [returns i_prod i_buf i_files i_errch i_obs i_in todo_of flag]; rewrite ?app_length; cbn [length]; lia).
    destruct (open_same l (mkIter p buf c eb ec true ech e nm fl true obs)) as (E1 & E2 & E3 & E4 & E5 & E6 & E7). rewrite E1, E2, E6, E7.
    assert (E : i_in (openLink w l (mkIter p buf c eb ec true ech e nm fl true obs)) = false /\ length (i_obs (openLink w l (mkIter p buf c eb ec true ech e nm fl true obs))) = S (length obs)).
    { unfold openLink. destruct (dserv_get w (lto l)) as [nd|? | |]; [destruct (NewUnixfsFile w nd)|..]; cbn [returns i_in i_obs]; (split; [reflexivity|]); rewrite app_length; cbn; lia. }
    destruct E as [-> ->]. cbn [i_prod i_buf i_files i_errch i_obs i_in length flag]. lia.
  Qed.
  Lemma steps_paid k s t : isteps w mayc k s t -> (k + ahead t + paid s <= ahead s + paid t)%nat.
  Proof. induction 1 as [|k s t u Hs IH H1]; [lia|]. apply step_paid in H1. lia. Qed.
End Iter.

(** ** Directories *)

Lemma feed_prefix cb es : forall acc r acc', feed cb acc es = (r, acc') ->
  exists es1 es2, es = es1 ++ es2 /\ acc' = rev (map plain es1) ++ acc /\ match r with None => es2 = [] | Some x => exists a l, cb a l = Some x end.
Proof.
  induction es as [|e es IH]; intros acc r acc' H; cbn [feed] in H; [injection H as <- <-; exists [], []; auto|].
  destruct (cb acc (plain e)) as [x|] eqn:E.
  - injection H as <- <-. exists [e], es. split; [reflexivity|]. split; [reflexivity|]. eauto.
  - destruct (IH _ _ _ H) as (es1 & es2 & -> & -> & Hr). exists (e :: es1), es2. split; [reflexivity|]. split; [cbn [map rev]; now rewrite <- app_assoc|]. assumption.
Qed.
Definition stop_at (cancel : option nat) : list link -> link -> option err :=
  fun acc _ => match cancel with Some i => if (length acc =? i)%nat then Some EOther else None | None => None end.
Lemma feed_stop i es : forall acc acc', feed (stop_at (Some i)) acc es = (None, acc') -> (length acc <= i)%nat -> (length acc + length es <= i)%nat.
Proof.
  induction es as [|e es IH]; intros acc acc' H Hi; cbn [feed] in H; [cbn; lia|]. cbn [stop_at] in H. destruct (Nat.eqb_spec (length acc) i) as [|Hne]; [discriminate|].
  pose proof (IH _ _ H) as P. cbn [length] in *. specialize (P ltac:(lia)). lia.
Qed.
Lemma bForEach_feed cb ls : forall acc, exists es, es = map named ls /\ bForEachLink cb acc ls = (match fst (feed cb acc es) with None => Ok tt | Some x => Err x end, snd (feed cb acc es)).
Proof.
  intros acc. exists (map named ls). split; [reflexivity|]. revert acc. induction ls as [|l ls IH]; intros acc; [reflexivity|]. cbn [bForEachLink map feed]. assert (plain (named l) = l) as -> by now destruct l.
  destruct (cb acc l); [reflexivity|apply IH].
Qed.

Definition cut (cancel : option nat) (ls : list link) : list link := match cancel with Some i => firstn i ls | None => ls end.
Lemma cut_prefix cancel ls : exists r, ls = cut cancel ls ++ r.
Proof. destruct cancel as [i|]; [exists (skipn i ls); symmetry; apply firstn_skipn|exists []; now rewrite app_nil_r]. Qed.

  Definition ends (cancel : option nat) (w : world) (rest : list (bytes * dentry)) (R : res unit) : Prop :=
    match R with
    | Ok _ => rest = []
    | Err x => x = EFetch /\ unreachable w \/ x = EOther /\ cancel <> None
    | _ => False
    end.
  Lemma fed cancel w es r acc : feed (stop_at cancel) [] es = (r, acc) -> exists rest, es = map named (cut cancel (rev acc)) ++ rest /\ ends cancel w rest (match r with None => Ok tt | Some x => Err x end).
  Proof.
    intros H. destruct (feed_prefix _ _ _ _ _ H) as (es1 & es2 & -> & -> & Hr). rewrite app_nil_r, rev_involutive. destruct (cut_prefix cancel (map plain es1)) as [q Hq].
    exists (map named q ++ es2). split; [rewrite app_assoc, <- map_app, <- Hq, named_plain_id; reflexivity|]. destruct r as [x|]; cbn [ends].
    - destruct Hr as (a & l & E). unfold stop_at in E. destruct cancel as [i|]; [|discriminate]. destruct (length a =? i)%nat; [|discriminate]. injection E as <-. right. split; [reflexivity|discriminate].
    - subst es2. rewrite app_nil_r in *. destruct cancel as [i|]; cbn [cut] in Hq.
      + apply feed_stop in H; [|cbn; lia]. cbn in H. rewrite firstn_all2 in Hq by (rewrite map_length; lia). rewrite <- (app_nil_r (map plain es1)) in Hq at 1. apply app_inv_head in Hq. now subst q.
      + rewrite <- (app_nil_r (map plain es1)) in Hq at 1. apply app_inv_head in Hq. now subst q.
  Qed.
  Lemma entries_inv w mayc cancel st k t L R : production cancel st = (L, R) -> isteps w mayc k (Entries cancel st) t -> iinv w mayc L R t.
  Proof. intros E H. unfold Entries in H. rewrite E in H. eapply steps_inv; [apply start_inv|exact H]. Qed.

  Definition why (w : world) (mayc : bool) (cancel : option nat) (w0 : world) (rest : list (bytes * dentry)) (x : err) : Prop :=
    x = EFetch /\ unreachable w0 \/ (exists e r, rest = e :: r /\ entry_file w e = Err x) \/ mayc = true \/ cancel <> None.
  Lemma shown w done os : Forall2 (yields w) done os -> Forall2 (shows w) (map named done) os.
  Proof. induction 1 as [|l o ls os (f & H) _ IH]; constructor; [exists f; exact H|assumption]. Qed.

Section Dir.
  Variables (hash : bytes -> bytes) (n : nat) (W : Z).
  Hypothesis Hn : (2 <= n)%nat.
  Hypothesis Hh : forall k, length (hash k) = n.
  Hypothesis Hv : valid_width W.

  Lemma production_good b D d x w cancel L R : dgood hash n W (eq (proto_prefix b)) D d (x, w) -> production cancel (x, w) = (L, R) -> exists rest, listing d (map named L ++ rest) /\ ends cancel w rest R.
  Proof using Hn Hh.
    intros [H0 Hg] H. unfold production in H. fold (stop_at cancel) in H. cbn [dEach] in H. destruct x as [bb|h]; cbn [fst snd] in Hg.
    - destruct (bForEach_feed (stop_at cancel) (b_links bb) []) as (es & Ees & E). rewrite E in H. destruct (feed (stop_at cancel) [] es) as [r acc] eqn:Ef. cbn [fst snd] in H. fold (cut cancel (rev acc)) in H. injection H as <- <-.
      destruct (fed cancel w es r acc Ef) as (rest & E1 & E2). exists rest. split; [|exact E2]. rewrite <- E1, Ees. apply Hg.
    - destruct (good_each hash n W _ Hh (HPb b) d (h_shard h) w (stop_at cancel) Hg) as (es & Hl & S). destruct (ForEachLink w (stop_at cancel) (h_shard h, [])) as [r [s acc]]. destruct S as [_ S]. fold (cut cancel (rev acc)) in H. injection H as <- <-.
      destruct r as [u|e| |]; try contradiction.
      + destruct (fed cancel w es None acc S) as (rest & E1 & E2). exists rest. split; [now rewrite <- E1|exact E2].
      + destruct S as [S|(-> & F & es1 & es2 & -> & S)].
        * destruct (fed cancel w es (Some e) acc S) as (rest & E1 & E2). exists rest. split; [now rewrite <- E1|exact E2].
        * destruct (fed cancel w es1 None acc S) as (rest & E1 & E2). exists (rest ++ es2). split; [now rewrite app_assoc, <- E1|]. left. auto.
  Qed.
  Lemma dir_holds_good b st d : dir_holds hash W b st d -> exists D, dgood hash n W (eq (proto_prefix b)) D d st.
  Proof using Hn Hh Hv.
    intros H. destruct folder_data as [D HD]. exists D. destruct H as [H|(nd & Hs & E)]; [exact (reached_good hash n W b Hn Hh Hv D HD _ _ H)|].
    destruct (saved_dir hash n W Hn Hh Hv b (snd st) nd d D HD Hs) as (x & E1 & G). assert (x = fst st) as -> by congruence. now destruct st.
  Qed.
  Lemma production_ok b st d cancel L R : dir_holds hash W b st d -> production cancel st = (L, R) -> exists rest, listing d (map named L ++ rest) /\ ends cancel (snd st) rest R.
  Proof using Hn Hh Hv. intros H E. destruct (dir_holds_good b st d H) as [D G]. destruct st as [x w]. exact (production_good b D d x w cancel L R G E). Qed.

  Lemma entries_ok b st d w mayc cancel k t : dir_holds hash W b st d -> isteps w mayc k (Entries cancel st) t ->
    exists es rest os fs, listing d (es ++ rest) /\ i_obs t = os ++ fs /\ Forall2 (shows w) es os /\ Forall (stops w (why w mayc cancel (snd st)) rest) fs.
  Proof using Hn Hh Hv.
    intros Hd Hs. destruct (production cancel st) as [L R] eqn:E. destruct (production_ok b st d cancel L R Hd E) as (r0 & Hl & He).
    destruct (inv_iterated w mayc L R t (entries_inv w mayc cancel st k t L R E Hs)) as [done rest os HL Hy|os fs Hy HR Hf|done rest x os fs HL Hy Hf Hw|done l rest os o HL Hy Hp].
    - exists (map named done), (map named rest ++ r0), os, []. rewrite app_assoc, <- map_app, <- HL, app_nil_r. split; [assumption|]. split; [reflexivity|]. split; [now apply shown|constructor].
    - subst R. cbn in He. subst r0. exists (map named L), [], os, fs. split; [assumption|]. split; [reflexivity|]. split; [now apply shown|]. eapply Forall_impl; [|exact Hf]. intros o [H1 H2]. left. auto.
    - exists (map named done), (map named rest ++ r0), os, fs. rewrite app_assoc, <- map_app, <- HL. split; [assumption|]. split; [reflexivity|]. split; [now apply shown|]. eapply Forall_impl; [|exact Hf]. intros o [H1 H2]. right. left. split; [assumption|]. exists x. split; [assumption|].
      destruct Hw as [->|[(l & r & -> & Hw)|Hw]].
      + destruct He as [He|[_ He]]; [now left|right; right; now right].
      + right. left. exists (named l), (map named r ++ r0). auto.
      + right. right. now left.
    - exists (map named done), (map named (l :: rest) ++ r0), os, [o]. rewrite app_assoc, <- map_app, <- HL. split; [assumption|]. split; [reflexivity|]. split; [now apply shown|]. constructor; [|constructor]. right. right. exists (named l), (map named rest ++ r0). auto.
  Qed.
  Lemma entries_go_on b st d w mayc cancel k t : dir_holds hash W b st d -> isteps w mayc k (Entries cancel st) t -> i_in t = true -> exists u, istep w mayc t u.
  Proof using Hn Hh Hv.
    intros Hd Hs Hin. destruct (production cancel st) as [L R] eqn:E. destruct (production_ok b st d cancel L R Hd E) as (r0 & _ & He).
    apply (next_goes_on w mayc L R t (entries_inv w mayc cancel st k t L R E Hs) Hin). destruct R; try contradiction; eexists; reflexivity.
  Qed.
  Lemma entries_bound b st d es w mayc cancel k t : dir_holds hash W b st d -> listing d es -> isteps w mayc k (Entries cancel st) t -> (k <= 2 * length es + 2 * length (i_obs t) + 6)%nat.
  Proof using Hn Hh Hv.
    intros Hd Hes Hs. destruct (production cancel st) as [L R] eqn:E. destruct (production_ok b st d cancel L R Hd E) as (r0 & Hl & _). apply steps_paid in Hs. unfold Entries in Hs. rewrite E in Hs.
    assert (length L <= length es)%nat.
    { rewrite <- (map_length named L), <- (map_length fst (map named L)), <- (map_length fst es). apply NoDup_incl_length.
      - destruct Hl as [Hl _]. rewrite map_app in Hl. clear -Hl. revert Hl. generalize (map fst (map named L)), (map fst r0). intros a c. induction a as [|x a IH]; [constructor|]. cbn. intros H. inversion_clear H. constructor; [|auto]. intros Hx. apply H0. apply in_or_app. now left.
      - intros kk Hk. apply in_map_iff in Hk as ([k1 e1] & <- & Hk). apply in_map. apply (proj2 Hes). apply (proj2 Hl). apply in_or_app. now left. }
    unfold ahead, paid in Hs. cbn [i_prod i_buf i_files i_errch i_obs i_in todo_of flag length] in Hs. destruct (i_in t); cbn [flag] in Hs; lia.
  Qed.
End Dir.

(** What a complete iteration shows, in the order of ForEachLink. *)
Lemma iteration_order w mayc st k t acc R st' : dEach (fun _ _ => None) st = ((R, acc), st') -> isteps w mayc k (Entries None st) t -> iterated w mayc (rev acc) R (i_obs t).
Proof. intros E H. eapply inv_iterated, entries_inv; [|exact H]. unfold production. now rewrite E. Qed.
Lemma iteration_error w mayc cancel st k t L x o : production cancel st = (L, Err x) -> isteps w mayc k (Entries cancel st) t -> In o (i_obs t) -> n_res o = Ok false ->
  exists y, n_err o = Some y /\ (y = x \/ mayc = true \/ exists l, In l L /\ link_file w l = Err y).
Proof.
  intros E H Hi Hr.
  assert (Hno : forall done os, Forall2 (yields w) done os -> In o os -> False).
  { intros done os Hy. induction Hy as [|l o1 ls os (f & _ & Ho & _) _ IH]; [easy|]. intros [->|Hj]; [congruence|auto]. }
  destruct (inv_iterated _ _ _ _ _ (entries_inv w mayc cancel st k t L (Err x) E H)) as [done rest os HL Hy|os fs Hy HR Hf|done rest y os fs HL Hy Hf Hw|done l rest os o1 HL Hy Hp].
  - destruct (Hno _ _ Hy Hi).
  - discriminate.
  - apply in_app_or in Hi as [Hi|Hi]; [destruct (Hno _ _ Hy Hi)|]. rewrite Forall_forall in Hf. destruct (Hf _ Hi) as [_ Hy2]. exists y. split; [assumption|].
    destruct Hw as [Hw|[(l & r & -> & Hw)|Hw]]; [left; congruence|right; right; exists l; split; [rewrite HL; apply in_or_app; right; now left|assumption]|right; now left].
  - apply in_app_or in Hi as [Hi|[->|[]]]; [destruct (Hno _ _ Hy Hi)|]. destruct Hp as [[_ Hp]|[_ Hp]]; congruence.
Qed.

(** Nothing goes wrong. *)
Lemma entries_complete hash n W b st d w k t : (2 <= n)%nat -> (forall k, length (hash k) = n) -> valid_width W -> dir_holds hash W b st d -> ~ unreachable (snd st) ->
  (forall name e, d name = Some e -> exists f, entry_file w (name, e) = Ok f) -> isteps w false k (Entries None st) t ->
  exists es rest os fs, listing d (es ++ rest) /\ i_obs t = os ++ fs /\ Forall2 (shows w) es os /\ Forall (fun o => n_res o = Ok false /\ n_err o = None) fs /\ (fs <> [] -> rest = []).
Proof.
  intros Hn Hh Hv Hd Hu Ho Hs. destruct (entries_ok hash n W Hn Hh Hv b st d w false None k t Hd Hs) as (es & rest & os & fs & H1 & H2 & H3 & H4).
  assert (Hf : forall o, In o fs -> n_res o = Ok false /\ n_err o = None /\ rest = []).
  { assert (Hopen : forall e r, rest = e :: r -> exists f, entry_file w e = Ok f) by (intros [name e] r ->; apply Ho; apply (proj2 H1); apply in_or_app; right; now left).
    rewrite Forall_forall in H4. intros o Hi. destruct (H4 o Hi) as [H|[(_ & x & _ & [[_ H]|[(e & r & Er & H)|[H|H]]])|(e & r & Er & H)]]; [assumption|contradiction| |discriminate|now destruct H|].
    - destruct (Hopen e r Er). congruence.
    - destruct (Hopen e r Er). destruct H as [[H _]|[H _]]; congruence. }
  exists es, rest, os, fs. split; [assumption|]. split; [assumption|]. split; [assumption|]. split; [apply Forall_forall; intros o Hi; destruct (Hf o Hi) as (? & ? & _); auto|]. destruct fs as [|o fs]; [congruence|]. intros _. now apply (Hf o); left.
Qed.

(** ** NewUnixfsFile *)

Lemma file_as_reader w root content : file_content root content -> NewUnixfsFile w root = rmap FFile (NewDagReader w root).
Proof.
  intros (cs & H & _). destruct H as [p d|p b fs E Ht _ _|p b fs ls css _ _ E Ht _ _ _ _]; [reflexivity|..]; cbn [NewUnixfsFile]; rewrite E; cbn [rbind]; unfold IsDir; destruct Ht as [-> | ->]; reflexivity.
Qed.
Lemma file_opens w root content ops : file_content root content -> zlen content < 9223372036854775808 -> below_available w root -> Forall op_ok ops ->
  exists r t r' pos', NewUnixfsFile w root = Ok (FFile r) /\ fsize (FFile r) = zlen content /\
    reader_run (map (fun op => (w, op)) ops) r = Some (t, r') /\ map fst t = ops /\ file_run content 0 t pos'.
Proof.
  intros Hf Hl Ha Ho. destruct (open_file w root content ops Hf Hl Ha Ho) as (r & t & r' & pos' & E & Es & H). exists r, t, r', pos'. split; [now rewrite (file_as_reader w root content Hf), E|]. split; [|exact H].
  cbn [fsize]. rewrite Es. unfold i64, two63, two64. pose proof (zlen_nonneg content). rewrite Z.mod_small; lia.
Qed.
Lemma link_opens w p ls target : zlen target < two64 -> exists b, SymlinkData target = Ok b /\ NewUnixfsFile w (NProto p b ls) = Ok (FLink target) /\ fsize (FLink target) = zlen target.
Proof.
  intros H. destruct (SymlinkData_decode target H) as (b & E1 & E2). exists b. split; [assumption|]. split; [|reflexivity]. cbn [NewUnixfsFile]. unfold FSNodeFromBytes. rewrite E2. reflexivity.
Qed.
Lemma directory_opens hash n W b w nd d : (2 <= n)%nat -> (forall k, length (hash k) = n) -> valid_width W -> saved hash W b w nd d ->
  exists x, NewUnixfsFile w nd = Ok (FDir x (i64 (node_size nd))) /\ dir_holds hash W b (x, w) d.
Proof.
  intros Hn Hh Hv Hs. destruct folder_data as [D HD]. destruct (saved_dir hash n W Hn Hh Hv b w nd d D HD Hs) as (x & E & _). exists x. split; [|right; exists nd; auto].
  destruct nd as [p dd|p dd ls]; [discriminate|]. cbn [NewUnixfsFile]. pose proof E as E'. cbn [NewDirectoryFromNode] in E'. destruct (FSNodeFromBytes dd) as [fsn|e| |]; try discriminate. cbn [rbind] in E' |- *.
  assert (IsDir fsn = true) as ->. { unfold IsDir. destruct (getType fsn =? TDirectory); [reflexivity|]. destruct (getType fsn =? THAMTShard); [reflexivity|discriminate]. }
  unfold newUnixfsDir. now rewrite E.
Qed.
