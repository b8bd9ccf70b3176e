(** Decoding Metadata. *)
From Verif Require Import Base Pb PbProofs FSNode FSNodeProofs SpecCodec SpecCodecProofs SpecMeta.

Lemma meta_fields gs b : is_message gs b -> forall x d m, mime_of gs d m -> obytes (m_mime x) = d ->
  exists y, uparse handle_meta add_unrec_meta x b = Ok y /\ obytes (m_mime y) = m.
Proof.
  induction 1 as [|f fs t bs Hn Ht Hp Hm IH]; intros x d m Hf Hx.
  - inversion Hf; subst. exists x. split; reflexivity.
  - pose proof (payload_wire _ _ Hp) as Hw.
    assert (S1 : exists x1 d1, mime_of fs d1 m /\ obytes (m_mime x1) = d1 /\ ustep handle_meta add_unrec_meta x (t ++ f_payload f ++ bs) = Ok (x1, bs)).
    { unfold ustep. rewrite (decode_varint64 _ _ _ Ht).
      replace ((f_num f * 8 + f_wire f) / 8) with (f_num f) by lia. replace ((f_num f * 8 + f_wire f) mod 8) with (f_wire f) by lia.
      inversion Hf as [|l v ? ? ? Hv Hr|? ? ? ? Ho Hr]; subst.
      - exists (mkMeta (Some v) (m_unrec x)), v. split; [exact Hr|]. split; [reflexivity|]. cbn [f_num f_wire f_payload]. unfold handle_meta.
        change (1 =? 1) with true. change (2 =? 2) with true. cbn match. rewrite <- app_assoc. now rewrite (dec_bytes64 _ _ _ Hv).
      - eexists (add_unrec_meta x _), _. split; [exact Hr|]. split; [reflexivity|].
        assert (E : handle_meta x (f_num f) (f_wire f) (f_payload f ++ bs) = FUnknown).
        { unfold handle_meta. destruct (f_num f =? 1) eqn:E1; [|reflexivity]. destruct (f_wire f =? 2) eqn:E2; [|reflexivity]. exfalso. apply Ho. f_equal; lia. }
        rewrite E. rewrite (skip_payload _ _ _ Hp). reflexivity. }
    destruct S1 as (x1 & d1 & Hr & Hx1 & E). destruct (IH x1 d1 m Hr Hx1) as (y & Ey & Hy). exists y. split; [|exact Hy].
    rewrite (uparse_ok_step handle_meta add_unrec_meta handle_meta_progress x _ x1 bs E). exact Ey.
Qed.

Lemma metadata_decode fs b d gs m : is_message fs b -> fields_effect fs empty_data d -> d_type d = Some TMetadata ->
  is_message gs (getData d) -> mime_of gs [] m -> MetadataFromBytes b = Ok (mkMetadata m 0).
Proof.
  intros H1 H2 Ht H3 H4. unfold MetadataFromBytes. rewrite (unmarshal_message fs b d H1 H2) by congruence. cbn [rbind].
  unfold getType at 1. rewrite Ht. change (TMetadata =? TMetadata) with true. cbn match.
  destruct (meta_fields gs (getData d) H3 empty_meta [] m H4 eq_refl) as (y & Ey & Hy). unfold uparse in Ey. unfold unmarshal_meta. rewrite Ey. cbn [rbind]. now rewrite Hy.
Qed.
Lemma metadata_only b m : MetadataFromBytes b = Ok m -> exists d, FSNodeFromBytes b = Ok d /\ d_type d = Some TMetadata /\ MetaSize m = 0.
Proof.
  unfold MetadataFromBytes, FSNodeFromBytes. destruct (unmarshal_data b) as [d| | |] eqn:E; try discriminate. cbn [rbind]. destruct (getType d =? TMetadata) eqn:Et; [|discriminate].
  destruct (unmarshal_meta _); try discriminate. intros [= <-]. exists d. split; [reflexivity|]. split; [|reflexivity]. unfold getType in Et. destruct (d_type d); [f_equal; lia|discriminate].
Qed.

(** A message with an unknown field, two mime types, and a field 1 of wire type 0. *)
Lemma metadata_decode_case :
  let gs := [mkField 1 2 [x01; x61]; mkField 1 0 [x05]; mkField 1 2 [x02; x62; x63]; mkField 9 0 [x07]] in
  let v := [x0a; x01; x61; x08; x05; x0a; x02; x62; x63; x48; x07] in
  let fs := [mkField 1 0 [x03]; mkField 2 2 (x0b :: v)] in
  let d := mkData (Some TMetadata) (Some v) None [] None None [] in
  is_message fs ([x08; x03; x12; x0b] ++ v) /\ fields_effect fs empty_data d /\ d_type d = Some TMetadata /\
  is_message gs (getData d) /\ mime_of gs [] [x62; x63].
Proof.
  intros gs v fs d. assert (V : forall b, (b2z b <? 128) = true -> varint64 (b2z b) [b]) by (intros b H; apply varint64_1; lia).
  split; [|split; [|split; [reflexivity|split]]].
  - apply (im_cons (mkField 1 0 [x03]) _ [x08] ([x12; x0b] ++ v)); cbn [f_num f_wire f_payload]; [lia|now apply (V x08)|apply (po_varint 3); now apply (V x03)|].
    apply (im_cons (mkField 2 2 (x0b :: v)) [] [x12] []); cbn [f_num f_wire f_payload]; [lia|now apply (V x12)|apply (po_bytes [x0b] v); now apply (V x0b)|constructor].
  - econstructor; [|econstructor; [|constructor]].
    + change TMetadata with (i32 3). apply (fe_type _ 3). now apply (V x03).
    + apply (fe_data [x0b] v). now apply (V x0b).
  - unfold d, getData, obytes, d_data.
    apply (im_cons (mkField 1 2 [x01; x61]) _ [x0a] [x08; x05; x0a; x02; x62; x63; x48; x07]); cbn [f_num f_wire f_payload]; [lia|now apply (V x0a)|apply (po_bytes [x01] [x61]); now apply (V x01)|].
    apply (im_cons (mkField 1 0 [x05]) _ [x08] [x0a; x02; x62; x63; x48; x07]); cbn [f_num f_wire f_payload]; [lia|now apply (V x08)|apply (po_varint 5); now apply (V x05)|].
    apply (im_cons (mkField 1 2 [x02; x62; x63]) _ [x0a] [x48; x07]); cbn [f_num f_wire f_payload]; [lia|now apply (V x0a)|apply (po_bytes [x02] [x62; x63]); now apply (V x02)|].
    apply (im_cons (mkField 9 0 [x07]) _ [x48] []); cbn [f_num f_wire f_payload]; [lia|now apply (V x48)|apply (po_varint 7); now apply (V x07)|constructor].
  - apply (mo_mime [x01] [x61]); [now apply (V x01)|]. apply mo_other; [discriminate|]. apply (mo_mime [x02] [x62; x63]); [now apply (V x02)|].
    apply mo_other; [discriminate|]. constructor.
Qed.

(** ** Accessors *)

Lemma varint64_det v v' p : varint64 v p -> varint64 v' p -> v = v'.
Proof. intros H H'. pose proof (decode_varint64 _ _ [] H) as E. rewrite (decode_varint64 _ _ [] H') in E. congruence. Qed.
Lemma payload_det v v' l l' : varint64 (zlen v) l -> varint64 (zlen v') l' -> l ++ v = l' ++ v' -> v = v'.
Proof.
  intros H H' E. pose proof (dec_bytes64 _ _ [] H) as D. pose proof (dec_bytes64 _ _ [] H') as D'. rewrite !app_nil_r, E in D. rewrite !app_nil_r in D'. congruence.
Qed.
(** [get] is determined by the last field [num]; [conv] is what becomes of its value. *)
Lemma last_number_get num (get : pbdata -> Z) (conv : Z -> Z) : 
  (forall f d d', field_effect f d d' -> ((f_num f, f_wire f) = (num, 0) -> forall v, varint64 v (f_payload f) -> get d' = conv v) /\ ((f_num f, f_wire f) <> (num, 0) -> get d' = get d)) ->
  forall fs d d', fields_effect fs d d' -> forall x v, get d = conv x -> last_number num fs x v -> get d' = conv v.
Proof.
  intros HG fs d d' H. induction H as [d|f fs d d1 d2 Hf Hs IH]; intros x v Hx L; [inversion L; subst; exact Hx|]. destruct (HG _ _ _ Hf) as (G1 & G2).
  inversion L as [|p y fs' ? ? Hy L'|? ? ? ? Hn L']; subst; [apply (IH y); [apply G1; [reflexivity|exact Hy]|exact L']|apply (IH x); [rewrite (G2 Hn); exact Hx|exact L']].
Qed.
Lemma last_bytes_get fs d d' : fields_effect fs d d' -> forall x v, getData d = x -> last_bytes 2 fs x v -> getData d' = v.
Proof.
  intros H. induction H as [d|f fs d d1 d2 Hf Hs IH]; intros x v Hx L; [inversion L; subst; reflexivity|].
  inversion L as [|l y fs' ? ? Hy L'|? ? ? ? Hn L']; subst.
  - apply (IH y); [|exact L']. inversion Hf as [| |? ? ? ? ? ? ? ? ? ? E|? ? ? ? ? ? ? ? ? ? E| | | |n w p tag t0 dd fs0 bs h ff u Hni]; subst; try discriminate.
    + unfold getData. cbn. eapply payload_det; [eassumption|eassumption|assumption].
    + exfalso. apply Hni. cbn. tauto.
  - apply (IH (getData d)); [|exact L']. inversion Hf; subst; try reflexivity. exfalso. now apply Hn.
Qed.
Ltac numeric := let f := fresh in let d := fresh in let d' := fresh in let H := fresh in intros f d d' H; inversion H; subst; cbn [f_num f_wire f_payload]; (split;
  [let E := fresh "E" in let v := fresh "v" in let Hv := fresh "Hv" in intros E v Hv; try discriminate E;
   first [match goal with H1 : varint64 ?a ?p, H2 : varint64 ?b ?p |- _ => pose proof (varint64_det _ _ _ H1 H2); subst; reflexivity end
         |injection E as -> ->; exfalso; match goal with X : ~ In _ _ |- _ => apply X; cbn; tauto end]
  |let E := fresh "E" in intros E; first [reflexivity|exfalso; now apply E]]).
Lemma accessors fs b d : is_message fs b -> fields_effect fs empty_data d -> d_type d <> None -> exists n, FSNodeFromBytes b = Ok n /\
  (forall v, last_number 1 fs 0 v -> getType n = i32 v) /\ (forall v, last_bytes 2 fs [] v -> getData n = v) /\ (forall v, last_number 3 fs 0 v -> getFilesize n = v) /\
  (forall v, last_number 5 fs 0 v -> getHashType n = v) /\ (forall v, last_number 6 fs 0 v -> getFanout n = v).
Proof.
  intros H1 H2 Ht. exists d. split; [unfold FSNodeFromBytes; now apply (unmarshal_message fs b d)|].
  split; [|split; [|split; [|split]]]; intros v L.
  - apply (last_number_get 1 getType i32 ltac:(numeric) _ _ _ H2 0); [reflexivity|exact L].
  - apply (last_bytes_get _ _ _ H2 []); [reflexivity|exact L].
  - apply (last_number_get 3 getFilesize (fun v => v) ltac:(numeric) _ _ _ H2 0); [reflexivity|exact L].
  - apply (last_number_get 5 getHashType (fun v => v) ltac:(numeric) _ _ _ H2 0); [reflexivity|exact L].
  - apply (last_number_get 6 getFanout (fun v => v) ltac:(numeric) _ _ _ H2 0); [reflexivity|exact L].
Qed.
(** Two fanouts, no hash type, a field 3 of wire type 2. *)
Lemma accessors_case :
  let fs := [mkField 6 0 [x08]; mkField 1 0 [x05]; mkField 3 2 [x00]; mkField 6 0 [x10]] in
  let b := [x30; x08; x08; x05; x1a; x00; x30; x10] in
  is_message fs b /\ fields_effect fs empty_data (mkData (Some 5) None None [] None (Some 16) [x1a; x00]) /\
  last_number 1 fs 0 5 /\ last_bytes 2 fs [] [] /\ last_number 3 fs 0 0 /\ last_number 5 fs 0 0 /\ last_number 6 fs 0 16.
Proof.
  intros fs b. assert (V : forall b, (b2z b <? 128) = true -> varint64 (b2z b) [b]) by (intros z H; apply varint64_1; lia).
  split; [|split].
  - apply (im_cons (mkField 6 0 [x08]) _ [x30] [x08; x05; x1a; x00; x30; x10]); cbn [f_num f_wire f_payload]; [lia|now apply (V x30)|apply (po_varint 8); now apply (V x08)|].
    apply (im_cons (mkField 1 0 [x05]) _ [x08] [x1a; x00; x30; x10]); cbn [f_num f_wire f_payload]; [lia|now apply (V x08)|apply (po_varint 5); now apply (V x05)|].
    apply (im_cons (mkField 3 2 [x00]) _ [x1a] [x30; x10]); cbn [f_num f_wire f_payload]; [lia|now apply (V x1a)|apply (po_bytes [x00] []); now apply (V x00)|].
    apply (im_cons (mkField 6 0 [x10]) _ [x30] []); cbn [f_num f_wire f_payload]; [lia|now apply (V x30)|apply (po_varint 16); now apply (V x10)|constructor].
  - econstructor; [apply (fe_fanout _ 8); now apply (V x08)|]. econstructor; [apply (fe_type _ 5); now apply (V x05)|].
    econstructor; [apply (fe_unknown 3 2 [x00] [x1a]); [cbn; intuition congruence|apply (po_bytes [x00] []); now apply (V x00)|apply (mv_last x1a); reflexivity]|].
    econstructor; [apply (fe_fanout _ 16); now apply (V x10)|constructor].
  - assert (X : forall num fs d m f, (f_num f, f_wire f) <> (num, 0) -> last_number num fs d m -> last_number num (f :: fs) d m) by (intros; now apply ln_other).
    split; [apply X; [discriminate|]; apply (ln_field 1 [x05] 5); [now apply (V x05)|]; apply X; [discriminate|]; apply X; [discriminate|constructor]|].
    split; [repeat (apply lb_other; [discriminate|]); constructor|]. split; [repeat (apply X; [discriminate|]); constructor|]. split; [repeat (apply X; [discriminate|]); constructor|].
    apply (ln_field 6 [x08] 8); [now apply (V x08)|]. apply X; [discriminate|]. apply X; [discriminate|]. apply (ln_field 6 [x10] 16); [now apply (V x10)|constructor].
Qed.
