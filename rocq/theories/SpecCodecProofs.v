(** The codec model meets the wire format specification of [SpecCodec]. *)
From Verif Require Import Base Pb PbProofs FSNode FSNodeProofs SpecCodec.

Lemma is_varint_nonneg v bs : is_varint v bs -> 0 <= v.
Proof.
  induction 1; [pose proof (b2z_range b); lia|lia].
Qed.
Lemma is_varint_nonempty v bs : is_varint v bs -> (1 <= length bs)%nat.
Proof. destruct 1; cbn [length]; lia. Qed.

Lemma dec_is_varint k : forall v bs r, is_varint v bs -> (length bs <= S k)%nat ->
  v < 2 * 128 ^ Z.of_nat k -> dec_varint k (bs ++ r) = Some (v, r).
Proof.
  induction k as [|k IH]; intros v bs r H Hl Hv.
  - change (128 ^ Z.of_nat 0) with 1 in Hv. destruct H as [b Hb|b v bs Hb H].
    + cbn [app dec_varint]. destruct (b2z b <? 2) eqn:E; [reflexivity|lia].
    + pose proof (is_varint_nonempty _ _ H). cbn [length] in Hl. lia.
  - rewrite pow128_S in Hv. destruct H as [b Hb|b v bs Hb H].
    + cbn [app dec_varint]. destruct (b2z b <? 128) eqn:E; [reflexivity|lia].
    + cbn [app dec_varint]. destruct (b2z b <? 128) eqn:E; [lia|].
      cbn [length] in Hl. rewrite (IH v bs r); [reflexivity|assumption|lia|lia].
Qed.

Lemma decode_varint64 v bs r : varint64 v bs -> decode_varint (bs ++ r) = Some (v, r).
Proof.
  intros (H1 & H2 & H3). apply dec_is_varint; [assumption|lia|].
  change (2 * 128 ^ Z.of_nat 9) with two64. unfold two64. lia.
Qed.

Lemma min_enc_varint k : forall n, 0 <= n < 2 * 128 ^ Z.of_nat k -> min_varint n (enc_varint k n).
Proof.
  induction k as [|k IH]; intros n Hn.
  - change (128 ^ Z.of_nat 0) with 1 in Hn. cbn [enc_varint].
    assert (E : b2z (z2b n) = n) by (rewrite b2z_z2b, Z.mod_small; lia).
    rewrite <- E at 1. constructor. lia.
  - rewrite pow128_S in Hn. cbn [enc_varint]. destruct (n <? 128) eqn:E.
    + assert (E2 : b2z (z2b n) = n) by (rewrite b2z_z2b, Z.mod_small; lia).
      rewrite <- E2 at 1. constructor. lia.
    + assert (E2 : b2z (z2b (n mod 128 + 128)) = n mod 128 + 128) by (rewrite b2z_z2b, Z.mod_small; lia).
      replace n with (b2z (z2b (n mod 128 + 128)) - 128 + 128 * (n / 128)) at 1 by lia.
      constructor; [lia|lia|]. apply IH. lia.
Qed.

Lemma min_varint_varint n : 0 <= n < two64 -> min_varint n (varint n).
Proof. intros H. apply min_enc_varint. exact H. Qed.

Lemma min_varint_nonneg v bs : min_varint v bs -> 0 <= v.
Proof. induction 1; [pose proof (b2z_range b); lia|lia]. Qed.

Lemma min_varint_unique v a : min_varint v a -> forall b, min_varint v b -> a = b.
Proof.
  induction 1 as [x Hx|x v bs Hx Hv H IH]; intros b Hb.
  - inversion Hb as [y Hy E|y w cs Hy Hw Hc E]; subst.
    + f_equal. now apply b2z_inj.
    + pose proof (b2z_range x). lia.
  - pose proof (b2z_range x). inversion Hb as [y Hy E|y w cs Hy Hw Hc E]; subst.
    + lia.
    + pose proof (b2z_range y). assert (v = w) by lia. subst w.
      assert (b2z x = b2z y) by lia. rewrite (b2z_inj _ _ H2). f_equal. apply IH. assumption.
Qed.

Lemma min_varint_eq n bs : 0 <= n < two64 -> min_varint n bs -> bs = varint n.
Proof. intros H1 H2. eapply min_varint_unique; [exact H2|]. now apply min_varint_varint. Qed.

Lemma payload_wire w p : payload_ok w p -> 0 <= w < 8.
Proof. destruct 1; lia. Qed.

Lemma skip_payload w p r : payload_ok w p -> skip_field w (p ++ r) = Ok r.
Proof.
  destruct 1 as [v p H|p H|l v H|p H]; unfold skip_field;
    [change (0 =? 0) with true|change (1 =? 0) with false; change (1 =? 1) with true|
     change (2 =? 0) with false; change (2 =? 1) with false; change (2 =? 2) with true|
     change (5 =? 0) with false; change (5 =? 1) with false; change (5 =? 2) with false;
     change (5 =? 3) with false; change (5 =? 5) with true]; cbn match.
  - now rewrite (decode_varint64 _ _ _ H).
  - unfold skip_fixed. rewrite zlen_app. pose proof (zlen_nonneg r).
    assert (zlen p = 8) by (unfold zlen; lia).
    destruct (zlen p + zlen r <? 8) eqn:E; [lia|]. rewrite zdrop_app_r by lia.
    replace (8 - zlen p) with 0 by lia. reflexivity.
  - unfold dec_bytes. rewrite <- app_assoc. rewrite (decode_varint64 _ _ _ H).
    rewrite zlen_app. pose proof (zlen_nonneg r).
    destruct (zlen v + zlen r <? zlen v) eqn:E; [lia|]. rewrite zdrop_app_r by lia.
    rewrite Z.sub_diag. reflexivity.
  - unfold skip_fixed. rewrite zlen_app. pose proof (zlen_nonneg r).
    assert (zlen p = 4) by (unfold zlen; lia).
    destruct (zlen p + zlen r <? 4) eqn:E; [lia|]. rewrite zdrop_app_r by lia.
    replace (4 - zlen p) with 0 by lia. reflexivity.
Qed.

Lemma dec_bytes64 l v r : varint64 (zlen v) l -> dec_bytes (l ++ v ++ r) = Some (v, r).
Proof.
  intros H. unfold dec_bytes. rewrite (decode_varint64 _ _ _ H). rewrite zlen_app.
  pose proof (zlen_nonneg r). destruct (zlen v + zlen r <? zlen v) eqn:E; [lia|].
  rewrite ztake_app_r, zdrop_app_r by lia. rewrite Z.sub_diag, ztake_0, zdrop_0, app_nil_r. reflexivity.
Qed.

Lemma handle_data_notin d n w b :
  ~ In (n, w) [(1,0); (2,2); (3,0); (4,0); (4,2); (5,0); (6,0)] ->
  handle_data d n w b = FUnknown.
Proof.
  intros H. unfold handle_data, handle_varint. cbn [In] in H.
  assert (Hx : forall a b : Z, ((a =? n) = true) -> ((b =? w) = true) -> (a, b) = (n, w)).
  { intros a c Ha Hc. f_equal; lia. }
  assert (Hn : forall a b : Z, n = a -> w = b -> (a, b) = (n, w)) by (intros; subst; reflexivity).
  destruct (n =? 1) eqn:E1.
  { destruct (w =? 0) eqn:W; [|reflexivity]. exfalso; apply H; left; apply Hn; lia. }
  destruct (n =? 2) eqn:E2.
  { destruct (w =? 2) eqn:W; [|reflexivity]. exfalso; apply H; right; left; apply Hn; lia. }
  destruct (n =? 3) eqn:E3.
  { destruct (w =? 0) eqn:W; [|reflexivity]. exfalso; apply H; do 2 right; left; apply Hn; lia. }
  destruct (n =? 4) eqn:E4.
  { destruct (w =? 2) eqn:W; [|destruct (w =? 0) eqn:W0; [|reflexivity]].
    - exfalso; apply H; do 4 right; left; apply Hn; lia.
    - exfalso; apply H; do 3 right; left; apply Hn; lia. }
  destruct (n =? 5) eqn:E5.
  { destruct (w =? 0) eqn:W; [|reflexivity]. exfalso; apply H; do 5 right; left; apply Hn; lia. }
  destruct (n =? 6) eqn:E6.
  { destruct (w =? 0) eqn:W; [|reflexivity]. exfalso; apply H; do 6 right; left; apply Hn; lia. }
  reflexivity.
Qed.

Lemma dec_packed_spec vs p : packed vs p -> forall f, (length p <= f)%nat -> dec_packed f p = Some vs.
Proof.
  induction 1 as [|v vs p bs Hv Hp IH]; intros f Hf.
  - destruct f; reflexivity.
  - destruct Hv as (Hv1 & Hv2 & Hv3). pose proof (is_varint_nonempty _ _ Hv1) as Hne.
    rewrite app_length in Hf. destruct f as [|f]; [lia|].
    destruct (p ++ bs) as [|c q] eqn:E.
    { destruct p; [cbn in Hne; lia|discriminate]. }
    cbn [dec_packed]. rewrite <- E. rewrite (decode_varint64 v p bs) by (repeat split; assumption).
    rewrite IH by lia. reflexivity.
Qed.

(** One decoder step on a specified field. *)
Lemma step_effect f d d' t r : 0 <= f_num f -> varint64 (f_num f * 8 + f_wire f) t ->
  payload_ok (f_wire f) (f_payload f) -> field_effect f d d' ->
  ustep handle_data add_unrec_data d (t ++ f_payload f ++ r) = Ok (d', r).
Proof.
  intros Hn Ht Hp Hf. pose proof (payload_wire _ _ Hp) as Hw.
  unfold ustep. rewrite (decode_varint64 _ _ _ Ht).
  replace ((f_num f * 8 + f_wire f) / 8) with (f_num f) by lia.
  replace ((f_num f * 8 + f_wire f) mod 8) with (f_wire f) by lia.
  destruct Hf; cbn [f_num f_wire f_payload] in *.
  - unfold handle_data, handle_varint. change (1 =? 1) with true. change (0 =? 0) with true. cbn match.
    now rewrite (decode_varint64 _ _ _ H).
  - unfold handle_data, handle_varint. change (2 =? 1) with false. change (2 =? 2) with true. cbn match.
    rewrite <- app_assoc. now rewrite (dec_bytes64 _ _ _ H).
  - unfold handle_data, handle_varint. change (3 =? 1) with false. change (3 =? 2) with false.
    change (3 =? 3) with true. change (0 =? 0) with true. cbn match.
    now rewrite (decode_varint64 _ _ _ H).
  - unfold handle_data, handle_varint. change (4 =? 1) with false. change (4 =? 2) with false.
    change (4 =? 3) with false. change (4 =? 4) with true. change (0 =? 0) with true.
    change (0 =? 2) with false. cbn match.
    now rewrite (decode_varint64 _ _ _ H).
  - unfold handle_data, handle_varint. change (4 =? 1) with false. change (4 =? 2) with false.
    change (4 =? 3) with false. change (4 =? 4) with true. change (2 =? 2) with true. cbn match.
    rewrite <- app_assoc. rewrite (dec_bytes64 _ _ _ H).
    now rewrite (dec_packed_spec _ _ H0).
  - unfold handle_data, handle_varint. change (5 =? 1) with false. change (5 =? 2) with false.
    change (5 =? 3) with false. change (5 =? 4) with false. change (5 =? 5) with true.
    change (0 =? 0) with true. cbn match.
    now rewrite (decode_varint64 _ _ _ H).
  - unfold handle_data, handle_varint. change (6 =? 1) with false. change (6 =? 2) with false.
    change (6 =? 3) with false. change (6 =? 4) with false. change (6 =? 5) with false.
    change (6 =? 6) with true. change (0 =? 0) with true. cbn match.
    now rewrite (decode_varint64 _ _ _ H).
  - rewrite handle_data_notin by assumption.
    rewrite (skip_payload _ _ _ H0). rewrite zlen_app.
    replace (zlen p + zlen r - zlen r) with (zlen p) by lia.
    rewrite ztake_app_l by lia. rewrite ztake_all by lia.
    destruct Ht as (Ht1 & _ & Ht3).
    rewrite (min_varint_eq (n * 8 + w) tag); [reflexivity| |assumption].
    split; [eapply is_varint_nonneg; eassumption|exact Ht3].
Qed.

Lemma parse_message fs b : is_message fs b -> forall d d', fields_effect fs d d' ->
  parse_data d b = Ok d'.
Proof.
  induction 1 as [|f fs t bs Hn Ht Hp Hm IH]; intros d d' Hf.
  - inversion Hf; subst. reflexivity.
  - inversion Hf as [|? ? ? d1 ? H1 H2]; subst.
    unfold parse_data. rewrite (uparse_ok_step handle_data add_unrec_data handle_data_progress d _ d1 bs).
    + now apply IH.
    + now apply step_effect.
Qed.

Lemma unmarshal_message fs b d : is_message fs b -> fields_effect fs empty_data d ->
  d_type d <> None -> unmarshal_data b = Ok d.
Proof.
  intros H1 H2 H3. pose proof (parse_message _ _ H1 _ _ H2) as H.
  unfold unmarshal_data. unfold parse_data, uparse in H. rewrite H. cbn [rbind].
  destruct (d_type d); [reflexivity|congruence].
Qed.

Lemma unmarshal_message_notype fs b d : is_message fs b -> fields_effect fs empty_data d ->
  d_type d = None -> unmarshal_data b = Err ERequired.
Proof.
  intros H1 H2 H3. pose proof (parse_message _ _ H1 _ _ H2) as H.
  unfold unmarshal_data. unfold parse_data, uparse in H. rewrite H. cbn [rbind].
  now rewrite H3.
Qed.

Lemma unknown_unrec_ok u : unknown_bytes u -> data_unrec_ok u.
Proof.
  induction 1 as [|n w t p bs Hn Hn0 Hlt Ht Hp Hu IH].
  - apply unrec_ok_nil, add_unrec_data_nil.
  - rewrite app_assoc. apply unrec_ok_app; [exact add_unrec_data_app| |exact IH].
    pose proof (payload_wire _ _ Hp) as Hw.
    assert (Hx : 0 <= n * 8 + w < two64) by (unfold two64; lia).
    rewrite (min_varint_eq _ _ Hx Ht).
    assert (E : p = ztake (zlen (p ++ []) - zlen (@nil byte)) (p ++ [])).
    { rewrite app_nil_r, zlen_nil, Z.sub_0_r. symmetry. apply ztake_all. lia. }
    rewrite E. eapply (unrec_ok_field handle_data add_unrec_data handle_data_progress handle_data_unknown empty_data).
    + exact Hx.
    + replace ((n * 8 + w) / 8) with n by lia. replace ((n * 8 + w) mod 8) with w by lia.
      now apply handle_data_notin.
    + replace ((n * 8 + w) mod 8) with w by lia. now apply skip_payload.
Qed.

Lemma go_data_good d : go_data d -> unknown_bytes (d_unrec d) -> good_data d.
Proof.
  intros [H1 H2 H3 H4 H5 H6] Hu. split; [|now apply unknown_unrec_ok].
  repeat split; try assumption. destruct (d_data d); [|exact I]. unfold uint64, two64 in *; lia.
Qed.

(** ** Canonical encoding *)

Lemma min_message_app fs a gs b : min_message fs a -> min_message gs b -> min_message (fs ++ gs) (a ++ b).
Proof.
  intros H1 H2. induction H1 as [|f fs t bs Ht Hp Hm IH]; cbn [app]; [assumption|].
  rewrite <- !app_assoc. now constructor.
Qed.

Lemma min_message_one f t : min_varint (f_num f * 8 + f_wire f) t -> min_payload (f_wire f) (f_payload f) ->
  min_message [f] (t ++ f_payload f).
Proof.
  intros H1 H2. rewrite <- (app_nil_r (f_payload f)). constructor; auto using mm_nil.
Qed.

Lemma min_opt n o : 0 <= n < 16 -> opt_uint64 o ->
  min_message (opt_field n 0 varint o) (enc_opt (n * 8) o).
Proof.
  intros Hn Ho. destruct o as [v|]; cbn [opt_field enc_opt]; [|constructor].
  apply (min_message_one (mkField n 0 (varint v))); cbn.
  - rewrite Z.add_0_r. apply min_varint_varint. unfold two64; lia.
  - econstructor. apply min_varint_varint. exact Ho.
Qed.

Lemma min_rep l : Forall uint64 l -> min_message (map (fun v => mkField 4 0 (varint v)) l) (enc_rep 32 l).
Proof.
  induction 1 as [|v l Hv Hl IH]; [constructor|].
  cbn [map]. unfold enc_rep; cbn [flat_map]; fold (enc_rep 32 l). rewrite <- app_assoc.
  constructor; cbn; [|econstructor; apply min_varint_varint; exact Hv|exact IH].
  apply (min_varint_varint 32). unfold two64; lia.
Qed.

Lemma marshal_canonical d b : go_data d -> marshal_data d = Ok b -> canonical_bytes d b.
Proof.
  intros [H1 H2 H3 H4 H5 H6] Hm. unfold marshal_data in Hm.
  destruct (d_type d) as [t|] eqn:Et; [|discriminate]. apply Ok_inj in Hm. subst b.
  exists t, varint. eexists. split; [assumption|]. split; [intros z Hz; apply min_varint_varint; exact Hz|].
  split.
  2:{ unfold canonical_fields. apply min_message_app.
      - apply (min_message_one (mkField 1 0 (varint (t mod 18446744073709551616))) (varint 8)).
        + cbn. apply (min_varint_varint 8). unfold two64; lia.
        + cbn. econstructor. apply min_varint_varint. apply u64_range.
      - apply min_message_app; [|apply min_message_app; [|apply min_message_app; [|apply min_message_app]]].
        + instantiate (1 := enc_optbytes 18 (d_data d)).
          destruct (d_data d) as [v|]; cbn [enc_optbytes]; [|constructor].
          apply (min_message_one (mkField 2 2 (varint (zlen v) ++ v)) (varint 18)).
          * cbn. apply (min_varint_varint 18). unfold two64; lia.
          * cbn. econstructor. apply min_varint_varint. exact H2.
        + apply min_opt; [lia|assumption].
        + apply min_rep; assumption.
        + apply min_opt; [lia|assumption].
        + apply min_opt; [lia|assumption]. }
  change (3 * 8) with 24. change (5 * 8) with 40. change (6 * 8) with 48. fold (u64 t).
  rewrite <- !app_assoc. reflexivity.
Qed.

(** ** FSNode histories *)

Definition fs_rel (t : Z) (r : res FSNode) (s : option (bytes * list Z)) : Prop :=
  match s with
  | None => r = Panic
  | Some (d, bs) => exists n, r = Ok n /\ getData n = d /\ d_blocksizes n = bs /\ size_inv n /\ d_type n = Some t
  end.

Lemma fs_rel_step t r s o : fs_rel t r s -> fs_rel t (fs_step r o) (spec_step s o).
Proof.
  destruct s as [[d bs]|]; cbn [fs_rel spec_step].
  2:{ intros ->. reflexivity. }
  intros (n & -> & Hd & Hb & Hs & Ht). unfold fs_step. cbn [rbind].
  destruct o as [b|s|i|].
  - exists (SetData b n). split; [reflexivity|]. split; [reflexivity|]. split; [exact Hb|]. split; [now apply size_inv_SetData|exact Ht].
  - exists (AddBlockSize s n). split; [reflexivity|]. split; [exact Hd|].
    split; [|split; [now apply size_inv_AddBlockSize|exact Ht]].
    unfold AddBlockSize, UpdateFilesize. cbn. now rewrite Hb.
  - destruct ((0 <=? i) && (i <? zlen bs)) eqn:E.
    + destruct (RemoveBlockSize i n) as [n'| | |] eqn:En.
      * exists n'. pose proof (size_inv_Remove _ _ _ Hs En) as Hs'.
        unfold RemoveBlockSize in En. rewrite Hb in En.
        destruct ((i <? 0) || _) eqn:E2; [discriminate|].
        destruct (nth_error bs (Z.to_nat i)); [|discriminate].
        apply Ok_inj in En. subst n'. repeat split; try assumption.
        cbn [d_blocksizes set_blocksizes UpdateFilesize set_filesize]. rewrite Hb. unfold ztake, zdrop. replace (S (Z.to_nat i)) with (Z.to_nat (i + 1)) by lia. reflexivity.
      * unfold RemoveBlockSize in En. destruct ((i <? 0) || _); [discriminate|].
        destruct (nth_error _ _); discriminate.
      * unfold RemoveBlockSize in En. rewrite Hb in En.
        destruct ((i <? 0) || _) eqn:E2; [lia|].
        destruct (nth_error bs (Z.to_nat i)) eqn:E3; [discriminate|].
        apply nth_error_None in E3. unfold zlen in E. lia.
      * unfold RemoveBlockSize in En. destruct ((i <? 0) || _); [discriminate|].
        destruct (nth_error _ _); discriminate.
    + cbn [fs_rel]. unfold RemoveBlockSize. rewrite Hb.
      destruct ((i <? 0) || (zlen bs <=? i)) eqn:E2; [reflexivity|lia].
  - exists (RemoveAllBlockSizes n). split; [reflexivity|]. split; [exact Hd|]. split; [reflexivity|].
    split; [apply size_inv_RemoveAll|exact Ht].
Qed.

Lemma fs_rel_run t ops : fs_rel t (fs_run t ops) (spec_run ops).
Proof.
  unfold fs_run, spec_run.
  assert (H : fs_rel t (Ok (NewFSNode t)) (Some ([], []))).
  { exists (NewFSNode t). repeat split. }
  revert H. generalize (Ok (NewFSNode t)) (Some (@nil byte, @nil Z)).
  induction ops as [|o ops IH]; intros r s H; cbn [fold_left]; [assumption|].
  apply IH. now apply fs_rel_step.
Qed.

Lemma zsum_total l : zsum l = total l.
Proof. induction l; cbn; [reflexivity|]. now rewrite IHl. Qed.

Lemma fs_run_spec t ops : (t = TFile \/ t = TRaw) ->
  match spec_run ops with
  | None => fs_run t ops = Panic
  | Some (d, bs) => exists n, fs_run t ops = Ok n /\ getData n = d /\ d_blocksizes n = bs /\
      NumChildren n = zlen bs /\ FileSize n = (zlen d + total bs) mod two64
  end.
Proof.
  intros Ht. pose proof (fs_rel_run t ops) as H. destruct (spec_run ops) as [[d bs]|]; [|exact H].
  destruct H as (n & Hr & Hd & Hb & Hs & Htt). exists n. repeat split; try assumption.
  - unfold NumChildren. now rewrite Hb.
  - unfold FileSize, size, getType. rewrite Htt.
    assert (E : FSNode.size n = Ok (getFilesize n)).
    { unfold FSNode.size, getType. rewrite Htt. destruct Ht as [-> | ->]; reflexivity. }
    unfold FSNode.size, getType in E. rewrite Htt in E. rewrite E.
    rewrite Hs, Hd, Hb, zsum_total. reflexivity.
Qed.

(** ** Metadata *)

Lemma metadata_mime m b : zlen (MimeType m) < 18446744073709551000 -> uint64 (MetaSize m) ->
  BytesForMetadata m = Ok b ->
  MetadataFromBytes b = Ok (mkMetadata (MimeType m) 0).
Proof.
  intros Hl Hs. unfold BytesForMetadata, MetadataBytes, marshal_meta. cbn [rbind m_mime m_unrec].
  rewrite app_nil_r. intros Hm.
  assert (Hlen : zlen (enc_optbytes 10 (Some (MimeType m))) < two64).
  { cbn [enc_optbytes]. rewrite !zlen_app.
    assert (Hk : forall k n, zlen (enc_varint k n) <= Z.of_nat k + 1).
    { induction k as [|k IH]; intros n; cbn [enc_varint]; [rewrite zlen_cons, zlen_nil; lia|].
      destruct (n <? 128); rewrite zlen_cons; [rewrite zlen_nil; lia|]. specialize (IH (n / 128)). lia. }
    pose proof (Hk 9%nat 10). pose proof (Hk 9%nat (zlen (MimeType m))). unfold varint.
    unfold two64. lia. }
  unfold MetadataFromBytes. erewrite unmarshal_marshal; [| |exact Hm].
  2:{ apply good_data_nounrec; [|reflexivity]. repeat split; cbn [d_type d_data d_filesize d_blocksizes d_hashtype d_fanout set_data set_type set_filesize empty_data];
      try exact I; try (unfold TMetadata; lia); try assumption; try constructor; try (cbn in *; unfold uint64 in Hs; unfold in_u64, two64; lia). }
  cbn [rbind]. change (getType _ =? TMetadata) with true. cbn match. cbn [getData d_data set_data obytes].
  rewrite unmarshal_meta_mime; [reflexivity|]. unfold two64; lia.
Qed.

(** ** Statements used in PropertiesCodec *)

Lemma roundtrip : forall d, go_data d -> unknown_bytes (d_unrec d) -> d_type d <> None ->
  exists b, GetBytes d = Ok b /\ FSNodeFromBytes b = Ok d.
Proof.
  intros d H1 H2 H3. unfold GetBytes. destruct (must_marshal_ok d H3) as (b & _ & Hb).
  exists b. split; [assumption|]. eapply unmarshal_marshal; [|exact Hb]. now apply go_data_good.
Qed.

Ltac wit := vm_compute; repeat split; try congruence; try discriminate; try reflexivity.

Lemma roundtrip_case :
  let d := mkData (Some 2) (Some [x61; x62]) (Some 18446744073709551615) [1; 300] (Some 34) None
             [x3a; x01; x7a] in
  go_data d /\ unknown_bytes (d_unrec d) /\ d_type d <> None.
Proof.
  intros d. split; [|split].
  - constructor; cbn; unfold uint64; repeat constructor; try lia; vm_compute; congruence.
  - change (d_unrec d) with ([x3a] ++ ([x01] ++ [x7a]) ++ []). apply (ub_cons 7 2).
    + cbn. intuition congruence.
    + lia.
    + lia.
    + apply (mv_last x3a). vm_compute. reflexivity.
    + constructor. split; [apply (iv_last x01); vm_compute; reflexivity|]. split; [cbn; lia|vm_compute; reflexivity].
    + constructor.
  - discriminate.
Qed.

Lemma stable_total : forall b,
  (exists d b', FSNodeFromBytes b = Ok d /\ GetBytes d = Ok b' /\ FSNodeFromBytes b' = Ok d)
  \/ (exists e, FSNodeFromBytes b = Err e).
Proof.
  intros b. unfold FSNodeFromBytes, GetBytes. destruct (unmarshal_total b) as [[d H]|[e H]]; [left|right; eauto].
  destruct (unmarshal_stable _ _ H) as (b' & H1 & H2). eauto 6.
Qed.

Lemma stable_case : exists d b',
  FSNodeFromBytes [x22; x02; x05; x06; x43; x08; x01; x44; x08; x82; x00] = Ok d /\
  d_blocksizes d = [5; 6] /\ d_type d = Some 2 /\ d_unrec d = [x43; x08; x01; x44] /\
  GetBytes d = Ok b' /\ FSNodeFromBytes b' = Ok d.
Proof. eexists. eexists. repeat split; vm_compute; reflexivity. Qed.

Lemma wrap_spec : forall b, uint64 (zlen (obytes b)) -> exists w, WrapData b = Ok w /\
  UnwrapData w = Ok (obytes b) /\ DataSize w = Ok (zlen (obytes b)).
Proof.
  intros b [_ H]. destruct (WrapData_decode b H) as (w & H1 & H2). exists w.
  split; [assumption|]. unfold UnwrapData, DataSize. rewrite H2. split; reflexivity.
Qed.
Lemma file_spec : forall b n, uint64 (zlen (obytes b)) -> uint64 n -> exists w, FilePBData b n = Ok w /\
  UnwrapData w = Ok (obytes b) /\ DataSize w = Ok n.
Proof.
  intros b n [_ H] Hn. destruct (FilePBData_decode b n H Hn) as (w & H1 & H2). exists w.
  split; [assumption|]. unfold UnwrapData, DataSize. rewrite H2. split; reflexivity.
Qed.
Lemma symlink_spec : forall p, uint64 (zlen p) -> exists w, SymlinkData p = Ok w /\
  UnwrapData w = Ok p /\ DataSize w = Ok (zlen p).
Proof.
  intros p [H0 H]. destruct (SymlinkData_decode p H) as (w & H1 & H2). exists w.
  split; [assumption|]. unfold UnwrapData, DataSize. rewrite H2. split; [reflexivity|].
  cbn [rbind]. unfold FSNode.size. cbn [getType d_type]. change (TSymlink =? TDirectory) with false.
  change (TSymlink =? THAMTShard) with false. change (TSymlink =? TFile) with false.
  change (TSymlink =? TRaw) with false. change (TSymlink =? TSymlink) with true. cbn [orb].
  unfold getData; cbn [d_data obytes]. rewrite u64_small; [reflexivity|]. unfold two64; lia.
Qed.
Lemma folder_spec : exists w, FolderPBData = Ok w /\ UnwrapData w = Ok [] /\
  DataSize w = Err EDirSize /\ exists d, FSNodeFromBytes w = Ok d /\ IsDir d = true.
Proof.
  destruct FolderPBData_decode as (w & H1 & H2). exists w. split; [assumption|].
  unfold UnwrapData, DataSize, FSNodeFromBytes. rewrite H2. repeat split. eexists. split; reflexivity.
Qed.
Lemma shard_spec : forall b f h, uint64 (zlen (obytes b)) -> uint64 f -> uint64 h ->
  exists w d, HAMTShardData b f h = Ok w /\ FSNodeFromBytes w = Ok d /\
  IsDir d = true /\ d_data d = b /\ getFanout d = f /\ getHashType d = h /\ DataSize w = Err EDirSize.
Proof.
  intros b f h [_ H] Hf Hh. destruct (HAMTShardData_decode b f h H Hf Hh) as (w & H1 & H2).
  eexists. eexists. split; [eassumption|]. split; [exact H2|]. unfold DataSize. rewrite H2. repeat split.
Qed.
Lemma constructors_case : uint64 (zlen (obytes (Some [x61]))) /\ uint64 7 /\ uint64 (zlen (obytes None)).
Proof. unfold uint64. repeat split; try lia; vm_compute; congruence. Qed.

Lemma size_history_case :
  spec_run [OpSetData (Some [x61; x62]); OpAddBlockSize 5; OpAddBlockSize 9; OpRemoveBlockSize 0] =
  Some ([x61; x62], [9]).
Proof. reflexivity. Qed.

Lemma metadata_partial : forall m, zlen (MimeType m) < 18446744073709551000 -> uint64 (MetaSize m) ->
  exists b m', BytesForMetadata m = Ok b /\ MetadataFromBytes b = Ok m' /\ MimeType m' = MimeType m.
Proof.
  intros m H1 H2.
  assert (exists b, BytesForMetadata m = Ok b) as [b Hb].
  { unfold BytesForMetadata, MetadataBytes, marshal_meta. cbn [rbind]. unfold marshal_data.
    cbn [d_type set_type set_data]. eexists. reflexivity. }
  exists b, (mkMetadata (MimeType m) 0). split; [assumption|]. split; [now apply metadata_mime|reflexivity].
Qed.
Lemma metadata_refuted : exists m b m', uint64 (MetaSize m) /\
  BytesForMetadata m = Ok b /\ MetadataFromBytes b = Ok m' /\ m' <> m.
Proof.
  exists (mkMetadata [x61] 3). eexists. eexists. split; [unfold uint64; cbn; lia|].
  split; [vm_compute; reflexivity|]. split; [vm_compute; reflexivity|]. congruence.
Qed.
Lemma metadata_case : zlen (MimeType (mkMetadata [x61] 3)) < 18446744073709551000.
Proof. vm_compute. reflexivity. Qed.

Lemma min_message_unique fs a : min_message fs a -> forall b, min_message fs b -> a = b.
Proof.
  induction 1 as [|f fs t bs Ht Hp Hm IH]; intros b Hb; inversion Hb; subst; [reflexivity|].
  f_equal; [eapply min_varint_unique; eassumption|]. f_equal. now apply IH.
Qed.

Lemma canonical_fields_ext e1 e2 t d : go_data d ->
  (forall z, uint64 z -> e1 z = e2 z) -> canonical_fields e1 t d = canonical_fields e2 t d.
Proof.
  intros [H1 H2 H3 H4 H5 H6] He. unfold canonical_fields.
  assert (Ho : forall n w o, opt_uint64 o -> opt_field n w e1 o = opt_field n w e2 o).
  { intros n w [v|] H; [|reflexivity]. cbn. now rewrite He. }
  f_equal. { rewrite He; [reflexivity|]. unfold uint64; lia. }
  f_equal. { destruct (d_data d); [|reflexivity]. now rewrite He. }
  f_equal. { now apply Ho. }
  f_equal. { clear - H4 He. induction H4; cbn; [reflexivity|]. rewrite IHForall, He by assumption. reflexivity. }
  f_equal; now apply Ho.
Qed.

Lemma canonical_unique : forall d b b', go_data d -> canonical_bytes d b -> canonical_bytes d b' -> b = b'.
Proof.
  intros d b b' Hg (t & e & bd & H1 & H2 & -> & H4) (t' & e' & bd' & H1' & H2' & -> & H4').
  rewrite H1 in H1'. apply Some_inj in H1'. subst t'. f_equal.
  rewrite (canonical_fields_ext e e') in H4.
  - eapply min_message_unique; eassumption.
  - assumption.
  - intros z Hz. eapply min_varint_unique; eauto.
Qed.

Lemma canonical_case : let d := mkData (Some 2) (Some [x61]) (Some 300) [] None None [] in
  go_data d /\ GetBytes d = Ok [x08; x02; x12; x01; x61; x18; xac; x02].
Proof.
  split; [|vm_compute; reflexivity].
  constructor; cbn; unfold uint64; repeat constructor; try lia; vm_compute; congruence.
Qed.

Lemma decode_spec : forall fs b d, is_message fs b -> fields_effect fs empty_data d ->
  FSNodeFromBytes b = (match d_type d with Some _ => Ok d | None => Err ERequired end).
Proof.
  intros fs b d H1 H2. destruct (d_type d) eqn:E.
  - apply (unmarshal_message fs); congruence.
  - now apply (unmarshal_message_notype fs b d).
Qed.

Lemma varint64_1 b : b2z b < 128 -> varint64 (b2z b) [b].
Proof. intros H. repeat split; [now constructor|cbn; lia|lia]. Qed.

Lemma decode_case :
  let fs := [mkField 4 2 [x02; x05; x06]; mkField 9 0 [x07]; mkField 1 0 [x82; x00]] in
  is_message fs [x22; x02; x05; x06; x48; x07; x08; x82; x00] /\
  fields_effect fs empty_data (mkData (Some 2) None None [5; 6] None None [x48; x07]).
Proof.
  assert (V : varint64 2 [x82; x00]).
  { split; [|split; [cbn; lia|lia]]. apply (iv_more x82 0); [vm_compute; congruence|].
    apply (iv_last x00); vm_compute; reflexivity. }
  split.
  - apply (im_cons (mkField 4 2 [x02; x05; x06]) _ [x22] [x48; x07; x08; x82; x00]); cbn [f_num f_wire f_payload]; [lia| | |].
    + apply (varint64_1 x22). vm_compute; reflexivity.
    + apply (po_bytes [x02] [x05; x06]). apply (varint64_1 x02). vm_compute; reflexivity.
    + apply (im_cons (mkField 9 0 [x07]) _ [x48] [x08; x82; x00]); cbn [f_num f_wire f_payload]; [lia| | |].
      * apply (varint64_1 x48). vm_compute; reflexivity.
      * apply (po_varint 7). apply (varint64_1 x07). vm_compute; reflexivity.
      * apply (im_cons (mkField 1 0 [x82; x00]) [] [x08] []); cbn [f_num f_wire f_payload]; [lia| | |constructor].
        -- apply (varint64_1 x08). vm_compute; reflexivity.
        -- apply (po_varint 2). exact V.
  - econstructor; [|econstructor; [|econstructor; [|constructor]]].
    + apply (fe_packed [x02] [x05; x06] [5; 6]).
      * apply (varint64_1 x02). vm_compute; reflexivity.
      * apply (pk_cons 5 [6] [x05] [x06]); [apply (varint64_1 x05); vm_compute; reflexivity|].
        apply (pk_cons 6 [] [x06] []); [apply (varint64_1 x06); vm_compute; reflexivity|constructor].
    + apply (fe_unknown 9 0 [x07] [x48]); [cbn; intuition congruence| |].
      * apply (po_varint 7). apply (varint64_1 x07). vm_compute; reflexivity.
      * apply (mv_last x48). vm_compute; reflexivity.
    + change 2 with (i32 2). apply (fe_type _ 2). exact V.
Qed.
