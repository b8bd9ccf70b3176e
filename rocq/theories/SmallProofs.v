(** Lemmas for C03 (sizes by type), C04 (block sizes), C06, C12, C51 (the default
    parameters) and C18 (what a failed Seek reports). *)
From Coq Require Import Lia.
From Verif Require Import Base Pb FSNode SpecCodec SpecCodecProofs Dag Builder Balanced Trickle Importer SpecFile ImportProofs Reader SpecReader.

Lemma size_by_type : forall b, DataSize b =
  match FSNodeFromBytes b with
  | Ok d =>
      match getType d with
      | 0 | 2 => Ok (match d_filesize d with Some z => z | None => 0 end)
      | 4 => Ok (zlen (obytes (d_data d)) mod 18446744073709551616)
      | 1 | 5 => Err EDirSize
      | _ => Err EUnrecData
      end
  | Err e => Err e
  | Panic => Panic
  | Fuel => Fuel
  end.
Proof.
  intros b. unfold DataSize, FSNodeFromBytes. destruct (unmarshal_data b) as [d| | |]; cbn [rbind]; try reflexivity.
  unfold size, TDirectory, THAMTShard, TFile, TRaw, TSymlink.
  destruct (getType d) as [|p|p]; [reflexivity| |reflexivity].
  do 3 (try destruct p as [p|p|]); reflexivity.
Qed.

Lemma block_sizes : forall t ops d bs n i, t = TFile \/ t = TRaw ->
  spec_run ops = Some (d, bs) -> fs_run t ops = Ok n ->
  BlockSize i n = if (0 <=? i) && (i <? zlen bs) then Ok (nth (Z.to_nat i) bs 0) else Panic.
Proof.
  intros t ops d bs n i Ht Hs Hr. pose proof (fs_run_spec t ops Ht) as H. rewrite Hs in H.
  destruct H as (n' & E & _ & Hb & _). rewrite Hr in E. injection E as <-.
  unfold BlockSize. rewrite Hb. unfold zlen. destruct (i <? 0) eqn:Ei.
  - now replace (0 <=? i) with false by lia.
  - replace (0 <=? i) with true by lia. destruct (i <? Z.of_nat (length bs)) eqn:El; cbn [andb].
    + rewrite (nth_error_nth' bs 0) by lia. reflexivity.
    + now rewrite (proj2 (nth_error_None bs (Z.to_nat i))) by lia.
Qed.

Lemma events_inj : forall a b, map EvData a = map EvData b -> a = b.
Proof. induction a as [|x a IH]; intros [|y b]; try discriminate; [reflexivity|]. intros [= -> H]. now rewrite (IH b H). Qed.

Lemma default_balanced : forall fuel fi chunks w, (length chunks <= fuel)%nat ->
  source_ok BlockSizeLimit chunks -> (forall i, w_addok w i = true) ->
  exists root w', BuildDagFromReader fuel fi (map EvData chunks) w = (Ok root, w') /\
    file_content root (concat chunks) /\ uniform false (mkPrefix 0 112 18 32) (mkPrefix 0 112 18 32) root.
Proof.
  intros fuel fi chunks w Hf Hs Ha.
  destruct (balanced_succeeds_ default_params fi chunks w fuel (proj2 default_limit) Hf Hs Ha) as (root & w' & E); [discriminate|].
  exists root, w'. split; [exact E|]. split; [|exact (balanced_formats _ _ _ _ _ _ _ E)].
  destruct (balanced_content _ _ _ _ _ _ _ E) as (c & Ec & Hc & _).
  now rewrite (events_inj _ _ Ec).
Qed.

Lemma default_trickle : forall fuel fi chunks w, (length chunks < fuel)%nat ->
  source_ok BlockSizeLimit chunks -> (forall i, w_addok w i = true) ->
  exists root w', BuildTrickleDagFromReader fuel fi (map EvData chunks) w = (Ok root, w') /\
    file_content root (concat chunks) /\ (chunks <> [] -> uniform false (mkPrefix 0 112 18 32) (mkPrefix 0 112 18 32) root).
Proof.
  intros fuel fi chunks w Hf Hs Ha. assert (Hk : 1 <= pr_maxlinks default_params) by discriminate.
  destruct (trickle_succeeds_ default_params fi chunks w fuel Hk Hf Hs Ha) as (root & w' & E); [discriminate|].
  exists root, w'. split; [exact E|].
  assert (Hl : (length (map EvData chunks) < fuel)%nat) by now rewrite map_length.
  split.
  - destruct (trickle_content _ _ _ _ _ _ _ Hk Hl E) as (c & Ec & Hc & _).
    now rewrite (events_inj _ _ Ec).
  - intros Hn. refine (trickle_formats _ _ _ _ _ _ _ Hk Hl _ E). now destruct chunks.
Qed.

Lemma failed_seek : forall w w' p r n e r1, 0 <= p -> Seek w p 0 r = (n, Err e, r1) ->
  n = 0 /\ Seek w' 0 1 r1 = (0, Ok tt, r1) /\ r_root r1 = r_root r.
Proof.
  intros w w' p r n e r1 Hp. unfold Seek at 1. cbn [Z.eqb]. unfold seek_start.
  replace (p <? 0) with false by lia. destruct (p =? r_off r); [discriminate|].
  destruct (p =? 0); [discriminate|]. destruct (seek_walk _ _ _ _ _ _) as [[[x| | |] st] d]; intros [= <- _ <-].
  now repeat split.
Qed.
