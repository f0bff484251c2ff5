From Verif Require Import Base BaseLemmas Str StrLemmas TextModel TextSpec TextProof Mode PictureModel FileModel Mp4Model Mp4WriteModel Mp4Spec Mp4Proof.

(** ** Writing values *)
Lemma atom_bytes_ok : forall id c b, atom_bytes id c = Ok b -> b = sbox id c /\ 8 + lenN c < 2 ^ 32.
Proof.
  unfold atom_bytes; intros id c b H. destruct (N.ltb_spec U32_MAX (8 + lenN c)); [discriminate|]. inversion H; subst. split; auto.
  unfold U32_MAX in *. lia.
Qed.
Lemma write_data_ok : forall t d b, write_data t d = Ok b -> b = dbox (t, d) /\ dbox_ok (t, d).
Proof.
  unfold write_data; intros t d b H. destruct (N.ltb_spec 16777215 t); [discriminate|]. apply atom_bytes_ok in H.
  destruct H as [-> H]. split; auto. split; cbn [fst snd]; [lia|].
  rewrite lenN_cons, !lenN_app, be_enc_len in H. change (lenN [0; 0; 0; 0]) with 4 in H. lia.
Qed.
Lemma be_enc_S : forall k v, be_enc (S k) v = be_enc k (v / 256) ++ [v mod 256].
Proof. intros. unfold be_enc. cbn [le_enc]. reflexivity. Qed.
Lemma unsigned_bytes : forall n, n < 2 ^ 32 -> dropN (4 - bytes_needed n) (be_enc 4 n) = be_enc (ubytes n) n.
Proof.
  intros n H. unfold bytes_needed, ubytes. destruct (N.eqb_spec n 0) as [->|Z]; [reflexivity|].
  assert (P : 2 ^ N.log2 n <= n < 2 ^ N.succ (N.log2 n)) by (apply N.log2_spec; lia).
  assert (Q : N.log2 n < 32).
  { destruct (N.lt_ge_cases (N.log2 n) 32); auto. pose proof (N.pow_le_mono_r 2 32 (N.log2 n)). lia. }
  assert (C : exists k, k = 4 - (31 - N.log2 n) / 8) by (eexists; reflexivity). destruct C as [k C]. cbn [bytes_needed]. rewrite <- C.
  destruct (N.ltb_spec n 256).
  - assert (N.log2 n < 8). { destruct (N.lt_ge_cases (N.log2 n) 8); auto. pose proof (N.pow_le_mono_r 2 8 (N.log2 n)). lia. }
    assert (K : k = 1) by lia. rewrite K. cbn [N.eqb Pos.eqb]. reflexivity.
  - assert (8 <= N.log2 n). { destruct (N.lt_ge_cases (N.log2 n) 8); auto. pose proof (N.pow_le_mono_r 2 (N.succ (N.log2 n)) 8). lia. }
    destruct (N.ltb_spec n 65536).
    + assert (N.log2 n < 16). { destruct (N.lt_ge_cases (N.log2 n) 16); auto. pose proof (N.pow_le_mono_r 2 16 (N.log2 n)). lia. }
      assert (K : k = 2) by lia. rewrite K. reflexivity.
    + assert (16 <= N.log2 n). { destruct (N.lt_ge_cases (N.log2 n) 16); auto. pose proof (N.pow_le_mono_r 2 (N.succ (N.log2 n)) 16). lia. }
      assert (K : k = 3 \/ k = 4) by lia. destruct K as [-> | ->]; reflexivity.
Qed.
Definition writable (d : adata) : Prop :=
  match d with
  | APic p => In (p_mime p) [None; Some Gif; Some Jpeg; Some Png; Some Bmp]
  | AUnsigned n => n < 2 ^ 32
  | AUtf16 _ => False
  | _ => True
  end.
Lemma write_value_ok : forall d b, writable d -> write_value d = Ok b -> b = dbox (coded d) /\ dbox_ok (coded d).
Proof.
  intros d b W H. destruct d; cbn [write_value coded] in *; try (now apply write_data_ok in H).
  - cbn [writable In] in W. destruct W as [W|[W|[W|[W|[W|[]]]]]]; rewrite <- W in *; cbn [pic_code]; now apply write_data_ok in H.
  - cbn [writable] in W. rewrite unsigned_bytes in H by auto. now apply write_data_ok in H.
Qed.
Lemma write_values_ok : forall l b, Forall writable l -> write_values l = Ok b ->
  b = flat_map dbox (map coded l) /\ Forall dbox_ok (map coded l).
Proof.
  induction l as [|d l]; cbn [write_values map flat_map]; intros b W H; [inversion H; split; auto|]. inversion W; subst.
  destruct (write_value d) eqn:E; cbn [bind] in H; try discriminate. destruct (write_values l) eqn:E2; cbn [bind] in H; try discriminate.
  inversion H; subst. apply write_value_ok in E; auto. destruct E as [-> E]. destruct (IHl _ H3 eq_refl) as [-> ?]. split; auto.
Qed.
Lemma values_writable : forall i ds, values_ok i ds -> Forall writable ds.
Proof.
  intros i ds H. destruct H as [ds H|ds H|ds H|f b H|i ds H _].
  1-3,5: eapply Forall_impl; [|exact H]; intros d D; destruct d; cbn in *; intuition.
  constructor; [cbn; auto|constructor].
Qed.
Lemma write_item_ok : forall a b, atom_ok a -> write_item a = Ok b ->
  b = item_box a /\ Forall dbox_ok (map coded (at_data a)) /\ lenN b < 2 ^ 32.
Proof.
  intros [i ds] b (HI & _ & HV) H. cbn [at_ident at_data] in *. unfold write_item in H. cbn [at_ident at_data] in H.
  destruct (write_values ds) eqn:E; cbn [bind] in H; try discriminate.
  apply write_values_ok in E; [|eapply values_writable; eauto]. destruct E as [-> E].
  unfold item_box; cbn [at_ident at_data]. destruct i as [f|mean name]; cbn [ident_content] in H.
  - cbn [app] in H. apply atom_bytes_ok in H. destruct H as [-> H]. repeat split; auto. destruct HI as [[? ?] ?]. rewrite lenN_sbox by auto. exact H.
  - apply atom_bytes_ok in H. destruct H as [H L].
    assert (B : 12 + lenN (utf8_enc mean) < 2 ^ 32 /\ 12 + lenN (utf8_enc name) < 2 ^ 32).
    { revert L. rewrite !lenN_app, !be_enc_len. change (lenN ($"mean")) with 4. change (lenN ($"name")) with 4. change (lenN [0; 0; 0; 0]) with 4. lia. }
    destruct B as [B1 B2].
    rewrite !N.mod_small in H, L by auto.
    assert (Q : forall (s : str), be_enc 4 (8 + lenN ([0; 0; 0; 0] ++ utf8_enc s)) = be_enc 4 (12 + lenN (utf8_enc s))).
    { intros. rewrite lenN_app. change (lenN [0; 0; 0; 0]) with 4. f_equal. lia. }
    unfold name_boxes, sbox at 2 3. rewrite !Q. rewrite <- !app_assoc in *. repeat split; auto.
    rewrite H, lenN_sbox by reflexivity. exact L.
Qed.

(** ** Reading them *)
Lemma inside_len : forall data r l, inside data r l -> lenN l <= lenN data.
Proof. intros data r l [H _]. unfold sees in H. rewrite <- H, lenN_dropN. lia. Qed.
Lemma dboxes_count : forall l, N.of_nat (length l) <= lenN (flat_map dbox l).
Proof. induction l; cbn [length flat_map]. cbn; lia. rewrite lenN_app, len_dbox. lia. Qed.
Lemma parse_data_inner_boxes : forall data m i r l rest,
  inside data r (flat_map dbox l ++ rest) -> Forall dbox_ok l -> a_start i + a_len i = r_pos r + lenN (flat_map dbox l) ->
  parse_data_inner data m i r = Ok (filter nonempty_value l, adv (lenN (flat_map dbox l)) r).
Proof.
  intros data m i r l rest HI HO HE. unfold parse_data_inner. rewrite HE.
  replace (r_pos r + lenN (flat_map dbox l) <? r_pos r) with false by lia.
  rewrite (data_loop_boxes _ _ _ _ _ _ _ _ _ HI HO); [reflexivity|lia|].
  pose proof (inside_len _ _ _ HI) as L. rewrite lenN_app in L. pose proof (dboxes_count l). unfold lenN at 3 in L. lia.
Qed.
Lemma signed_bytes : forall z, (- 2 ^ 31 <= z < 2 ^ 31)%Z -> parse_int4 (be_enc 4 (Z.to_N (z mod 2 ^ 32))) = Ok z.
Proof.
  intros z H. assert (B : Z.to_N (z mod 2 ^ 32) < 256 ^ 4). { change (256 ^ 4) with 4294967296. change (2 ^ 32)%Z with 4294967296%Z. lia. }
  unfold parse_int4. rewrite be_enc_len, be_dec_enc by exact B. change (N.of_nat 4 =? 1) with false. change (N.of_nat 4 =? 2) with false.
  change (N.of_nat 4 =? 3) with false. change (N.of_nat 4 =? 4) with true. cbv iota.
  f_equal. unfold to_signed. change (2 ^ (32 - 1)) with 2147483648. change (Z.of_N (2 ^ 32)) with 4294967296%Z. change (2 ^ 32)%Z with 4294967296%Z in *. change (2 ^ 31)%Z with 2147483648%Z in *. clear B.
  destruct (Z.ltb_spec z 0).
  - assert (E : (z mod 4294967296 = z + 4294967296)%Z) by (symmetry; apply (Z.mod_unique _ _ (-1)); lia). rewrite E.
    replace (Z.to_N (z + 4294967296) <? 2147483648) with false by lia. rewrite Z2N.id by lia. lia.
  - rewrite Z.mod_small by lia. replace (Z.to_N z <? 2147483648) with true by lia. now apply Z2N.id.
Qed.
Lemma ubytes_bound : forall n, n < 2 ^ 32 -> n < 256 ^ N.of_nat (ubytes n).
Proof. intros. unfold ubytes. destruct (N.ltb_spec n 256); [|destruct (N.ltb_spec n 65536)]; assumption. Qed.
Lemma unsigned_read : forall n, n < 2 ^ 32 -> parse_uint4 (be_enc (ubytes n) n) = Ok n.
Proof.
  intros. unfold parse_uint4. rewrite be_enc_len, be_dec_enc by now apply ubytes_bound.
  unfold ubytes. destruct (n <? 256); [|destruct (n <? 65536)]; reflexivity.
Qed.
Lemma utf8_enc_nonempty : forall s, s <> [] -> utf8_enc s <> [].
Proof. intros [|c s] H; [congruence|]. cbn [utf8_enc]. unfold utf8_char. repeat destruct (_ <? _); discriminate. Qed.
Lemma interpret_plain : forall d, plain_value d -> interpret (fst (coded d)) (snd (coded d)) = Ok d /\ snd (coded d) <> [].
Proof.
  intros d H. destruct d; cbn [plain_value coded fst snd] in *; try contradiction.
  - destruct H as [H1 H2]. split; [|now apply utf8_enc_nonempty]. unfold interpret. cbn. rewrite text_decode by auto. reflexivity.
  - split; [|discriminate]. unfold interpret. cbn [N.eqb Pos.eqb DT_UTF8 DT_UTF16 DT_SIGNED]. rewrite signed_bytes by auto. reflexivity.
  - split. unfold interpret. cbn [N.eqb Pos.eqb DT_UTF8 DT_UTF16 DT_SIGNED DT_UNSIGNED]. rewrite unsigned_read by auto. reflexivity.
    unfold ubytes. destruct (n <? 256); [|destruct (n <? 65536)]; discriminate.
  - destruct H as (H1 & H2 & H3). split; auto. unfold interpret. cbn [In] in H2. unfold DT_UTF8, DT_UTF16, DT_SIGNED, DT_UNSIGNED.
    repeat match goal with |- context[?a =? ?b] => destruct (N.eqb_spec a b); [subst; intuition lia|] end. reflexivity.
Qed.
Lemma interpret_plains : forall ds, Forall plain_value ds -> interpret_all (map coded ds) = Ok ds.
Proof.
  induction ds; intros H; cbn [map interpret_all]; auto. inversion H; subst. destruct (interpret_plain a H2) as [E _].
  destruct (coded a) as [t c]. cbn [fst snd] in E. rewrite E, IHds by auto. reflexivity.
Qed.
Lemma all_nonempty : forall l, Forall (fun v : N * bytes => snd v <> []) l -> filter nonempty_value l = l.
Proof. induction l as [|[t c] l]; intros H; cbn [filter]; auto. inversion H; subst. rewrite IHl by auto. destruct c; [cbn in *; congruence|reflexivity]. Qed.
Lemma covr_pics : forall ds, Forall pic_value ds -> covr_data (map coded ds) = Some ds.
Proof.
  induction ds as [|d ds]; intros H; cbn [map covr_data]; auto. inversion H; subst. destruct d; cbn [pic_value] in H2; try contradiction.
  destruct H2 as (T & D & E & M). cbn [coded]. rewrite IHds by auto.
  assert (Q : mime_of_type (pic_code (p_mime p)) = Some (p_mime p)).
  { cbn [In] in M. destruct M as [M|[M|[M|[M|[M|[]]]]]]; rewrite <- M; reflexivity. }
  rewrite Q. destruct p; cbn in *; subst. reflexivity.
Qed.
Lemma raw_map : forall ok ds, Forall (raw_value ok) ds -> map unknown_of (map coded ds) = ds.
Proof.
  induction ds as [|d ds]; intros H; cbn [map]; auto. inversion H; subst. destruct d; cbn [raw_value] in H2; try contradiction. rewrite IHds by auto. reflexivity.
Qed.
Lemma values_nonempty : forall i ds, values_ok i ds -> filter nonempty_value (map coded ds) = map coded ds.
Proof.
  intros i ds H. apply all_nonempty. apply Forall_map. destruct H as [ds H|ds H|ds H|f b H|i ds H _].
  1-3,5: eapply Forall_impl; [|exact H]; intros d D.
  - destruct d; cbn in *; intuition.
  - destruct d; cbn in *; intuition.
  - destruct d; cbn in *; intuition.
  - now apply interpret_plain.
  - constructor; [cbn; discriminate|constructor].
Qed.
Lemma map_coded_nonnil : forall (ds : list adata), ds <> [] -> exists v l, map coded ds = v :: l.
Proof. intros [|d ds] H; [congruence|]. cbn. eauto. Qed.
Definition vals (a : atom) : bytes := flat_map dbox (map coded (at_data a)).
Lemma len_name_boxes : forall mean name, lenN (name_boxes mean name) = 24 + lenN (utf8_enc mean) + lenN (utf8_enc name).
Proof. intros. unfold name_boxes. rewrite lenN_app, !lenN_sbox, !lenN_app by reflexivity. change (lenN [0; 0; 0; 0]) with 4. lia. Qed.
Lemma next_item : forall data r m a rest, inside data r (item_box a ++ rest) -> ident_ok (at_ident a) -> lenN (item_box a) < 2 ^ 32 ->
  exists r', next data m r = Ok (Some (mkAi (r_pos r) (lenN (item_box a)) false (at_ident a)), r') /\
    inside data r' (vals a ++ rest) /\ adv (lenN (vals a)) r' = adv (lenN (item_box a)) r /\
    r_pos r + lenN (item_box a) = r_pos r' + lenN (vals a).
Proof.
  intros data r m [i ds] rest HI HO HL. unfold item_box, vals in *; cbn [at_ident at_data] in *. set (vs := flat_map dbox (map coded ds)) in *.
  destruct i as [f|mean name]; cbn [ident_ok] in HO.
  - destruct HO as [HO HN]. rewrite lenN_sbox in * by apply HO. exists (adv 8 r).
    rewrite (inside_next _ _ _ _ _ m HI HO HN HL). repeat split; auto.
    + apply inside_body in HI; [apply HI|apply HO].
    + apply inside_body in HI; [apply HI|apply HO].
    + now rewrite adv_adv.
    + rewrite adv_pos. lia.
  - destruct HO as [HM HN]. assert (J : box_id ($"----")) by idok. rewrite lenN_sbox in * by reflexivity.
    rewrite lenN_app, len_name_boxes in *. set (k := 24 + lenN (utf8_enc mean) + lenN (utf8_enc name)) in *.
    pose proof (inside_body _ _ _ _ _ HI eq_refl) as HB. rewrite <- app_assoc in HB.
    exists (adv (8 + k) r). split.
    + pose proof HI as [S (bd & E & L)]. unfold sbox in S. rewrite lenN_app, len_name_boxes in S. fold k in S. rewrite <- !app_assoc in S.
      rewrite lenN_app, lenN_sbox, lenN_app, len_name_boxes in L by reflexivity. fold k in L.
      assert (A : avail 8 r) by (unfold avail; rewrite E; lia).
      unfold next. rewrite E. replace (b_rem bd =? 0) with false by lia. replace (b_rem bd <? 8) with false by lia.
      unfold read_info. rewrite (read_head_box _ _ _ _ _ (b_rem bd) m S J) by (auto; lia).
      cbn [bind h_id h_len h_start h_ext]. rewrite list_eqb_refl. replace (b_rem bd <? 8) with false by lia.
      replace (b_rem bd - 8 <? 8) with false by (unfold k in *; lia).
      rewrite (parse_freeform_boxes _ _ _ _ _ _ _ HB HM HN) by (unfold k in *; lia). cbn [bind]. fold k. rewrite adv_adv. reflexivity.
    + apply inside_adv with (n := k) in HB; [|apply len_name_boxes]. rewrite adv_adv in HB. split; [exact HB|].
      split; [rewrite adv_adv; f_equal; lia|]. rewrite adv_pos. lia.
Qed.
Lemma flag_in : forall f, In f FLAGS -> existsb (fun g => is_fourcc g (Fourcc f)) FLAG_ATOMS = true.
Proof.
  intros f H. apply existsb_exists. exists f. split; [exact H|]. cbn [is_fourcc]. apply list_eqb_refl.
Qed.
Lemma not_special : forall i f, (forall f, i = Fourcc f -> ~ In f SPECIAL) -> In f SPECIAL -> is_fourcc f i = false.
Proof.
  intros [g|? ?] f H I; cbn [is_fourcc]; auto. destruct (list_eqb g f) eqn:E; auto. apply list_eqb_eq in E. subst g.
  exfalso. eapply H; eauto.
Qed.
Lemma parse_values : forall data r m a rest len r', inside data r' (vals a ++ rest) -> Forall dbox_ok (map coded (at_data a)) ->
  values_ok (at_ident a) (at_data a) -> r_pos r + len = r_pos r' + lenN (vals a) -> adv (lenN (vals a)) r' = adv len r ->
  parse_data_inner data m (mkAi (r_pos r) len false (at_ident a)) r' = Ok (map coded (at_data a), adv len r).
Proof.
  intros data r m a rest len r' HI HO HV HE HA.
  rewrite (parse_data_inner_boxes _ _ _ _ _ _ HI HO) by exact HE. fold (vals a). rewrite HA, (values_nonempty _ _ HV). reflexivity.
Qed.
Lemma ilst_step : forall data o a fuel r tag rest, kept o a ->
  inside data r (item_box a ++ rest) -> atom_ok a -> Forall dbox_ok (map coded (at_data a)) -> lenN (item_box a) < 2 ^ 32 ->
  ilst_loop (S fuel) data o r tag [] = ilst_loop fuel data o (adv (lenN (item_box a)) r) (tag ++ [a]) [].
Proof.
  intros data o a fuel r tag rest [HC HM] HI (HO & HD & HV) HB HL.
  destruct (next_item data r (mo_mode o) a rest HI HO HL) as (r' & E & HI' & HA & HE).
  cbn [ilst_loop]. rewrite E. cbn [a_ident a_ext a_len].
  pose proof (parse_values data r (mo_mode o) a rest (lenN (item_box a)) r' HI' HB HV HE HA) as P.
  destruct (map_coded_nonnil _ HD) as (v & l & ML). remember (lenN (item_box a)) as len eqn:Elen. clear Elen.
  destruct a as [i ds]. cbn [at_ident at_data] in *. inversion HV; subst.
  - change (is_fourcc ($"free") (Fourcc ($"covr")) || is_fourcc ($"skip") (Fourcc ($"covr"))) with false.
    change (is_fourcc ($"covr") (Fourcc ($"covr"))) with true. cbv iota. rewrite (HC eq_refl).
    unfold handle_covr. rewrite P. cbn [bind]. rewrite ML. rewrite <- ML. rewrite covr_pics by auto. cbn [bind]. reflexivity.
  - change (is_fourcc ($"free") (Fourcc ($"gnre")) || is_fourcc ($"skip") (Fourcc ($"gnre"))) with false.
    change (is_fourcc ($"covr") (Fourcc ($"gnre"))) with false. change (is_fourcc ($"gnre") (Fourcc ($"gnre"))) with true. cbv iota.
    rewrite P. cbn [bind]. rewrite (HM eq_refl). erewrite raw_map by eauto. unfold push_some. destruct ds; [congruence|]. reflexivity.
  - change (is_fourcc ($"free") (Fourcc ($"plID")) || is_fourcc ($"skip") (Fourcc ($"plID"))) with false.
    change (is_fourcc ($"covr") (Fourcc ($"plID"))) with false. change (is_fourcc ($"gnre") (Fourcc ($"plID"))) with false.
    change (is_fourcc ($"plID") (Fourcc ($"plID"))) with true. cbv iota.
    rewrite P. cbn [bind].
    assert (Q : filter (fun x : N * bytes => lenN (snd x) =? 8) (map coded ds) = map coded ds).
    { clear - H. induction ds as [|d ds]; cbn [map filter]; auto. inversion H; subst. destruct d; cbn [raw_value] in H2; try contradiction.
      cbn [coded snd]. destruct H2 as (_ & _ & L). rewrite L. cbn [N.eqb Pos.eqb]. now rewrite IHds. }
    rewrite Q. erewrite raw_map by eauto. unfold push_some. destruct ds; [congruence|]. reflexivity.
  - assert (F : forall g, ~ In g FLAGS -> is_fourcc g (Fourcc f) = false).
    { intros g G. cbn [is_fourcc]. apply list_eqb_neq. intros ->. now apply G. }
    rewrite !F by (cbn [In FLAGS]; vm_compute; intuition discriminate). cbn [orb]. rewrite flag_in by auto.
    rewrite P. cbn [bind map coded snd existsb]. destruct b; reflexivity.
  - assert (F : forall g, In g SPECIAL -> is_fourcc g i = false) by (intros; now apply not_special).
    rewrite !F by (cbn [In SPECIAL FLAGS app]; tauto). cbn [orb].
    assert (G : existsb (fun f => is_fourcc f i) FLAG_ATOMS = false).
    { unfold FLAG_ATOMS. cbn [existsb]. rewrite !F by (cbn [In SPECIAL FLAGS app]; tauto). reflexivity. }
    rewrite G. unfold parse_data. rewrite P. cbn [bind]. rewrite ML. rewrite <- ML. rewrite interpret_plains by auto. reflexivity.
Qed.
Lemma ilst_loop_ok : forall data o l fuel r tag, Forall (kept o) l ->
  inside data r (flat_map item_box l) -> Forall (fun a => atom_ok a /\ Forall dbox_ok (map coded (at_data a)) /\ lenN (item_box a) < 2 ^ 32) l ->
  (length l < fuel)%nat -> ilst_loop fuel data o r tag [] = Ok (tag ++ l, []).
Proof.
  intros data o. induction l as [|a l]; intros fuel r tag HC HI HO HF; (destruct fuel; [inversion HF|]).
  - cbn [ilst_loop]. rewrite inside_end by exact HI. rewrite app_nil_r. reflexivity.
  - cbn [flat_map] in HI. inversion HO as [|? ? (O1 & O2 & O3) HO']; subst. inversion HC as [|? ? HC1 HC']; subst. rewrite (ilst_step _ _ _ _ _ _ _ HC1 HI O1 O2 O3).
    rewrite IHl; auto.
    + rewrite <- app_assoc. reflexivity.
    + eapply inside_adv; eauto.
    + cbn in HF; lia.
Qed.
Lemma item_boxes_count : forall l, Forall (fun a => ident_ok (at_ident a)) l -> N.of_nat (length l) <= lenN (flat_map item_box l).
Proof.
  induction l as [|a l]; intros H; cbn [length flat_map]; [apply N.le_0_l|]. inversion H; subst. rewrite lenN_app.
  assert (8 <= lenN (item_box a)).
  { unfold item_box. destruct (at_ident a) as [f|]; rewrite lenN_sbox; try lia; auto. apply H2. }
  apply IHl in H3. lia.
Qed.
Lemma write_items_ok : forall l b, Forall atom_ok l -> write_items l = Ok b ->
  b = flat_map item_box l /\ Forall (fun a => atom_ok a /\ Forall dbox_ok (map coded (at_data a)) /\ lenN (item_box a) < 2 ^ 32) l.
Proof.
  induction l as [|a l]; cbn [write_items flat_map]; intros b HO H; [inversion H; split; auto|]. inversion HO; subst.
  destruct (write_item a) eqn:E; cbn [bind] in H; try discriminate. destruct (write_items l) eqn:E2; cbn [bind] in H; try discriminate.
  inversion H; subst. apply write_item_ok in E; auto. destruct E as (-> & E & L). destruct (IHl _ H3 eq_refl) as [-> ?]. split; auto.
Qed.
Lemma parse_items : forall o l, Forall (kept o) l ->
  Forall (fun a => atom_ok a /\ Forall dbox_ok (map coded (at_data a)) /\ lenN (item_box a) < 2 ^ 32) l ->
  parse_ilst o (flat_map item_box l) = Ok l.
Proof.
  intros o l HC HO. unfold parse_ilst. rewrite (ilst_loop_ok _ _ l); auto using inside_start. apply Nat.lt_succ_r.
  assert (N.of_nat (length l) <= lenN (flat_map item_box l)).
  { apply item_boxes_count. eapply Forall_impl; [|exact HO]. intros a ((? & _) & _). auto. }
  unfold lenN in *. lia.
Qed.
