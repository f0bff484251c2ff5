From Verif Require Import Base BaseLemmas Str StrLemmas TextModel TextSpec TextProof Mode PictureModel FileModel Mp4Model Mp4WriteModel Mp4Spec Mp4Proof Mp4Proof3 Mp4Proof4 Mp4Proof5 Mp4Proof6 Mp4Proof7.

(** ** A reader whose bounds end after [l] *)
Definition within (data : bytes) (r : reader) (l rest : bytes) : Prop :=
  sees data r (l ++ rest) /\ exists b, r_bound r = Some b /\ b_rem b = lenN l.
Lemma within_adv : forall data r a b rest n, within data r (a ++ b) rest -> lenN a = n -> within data (adv n r) b rest.
Proof.
  intros data r a b rest n [S (bd & E & L)] H. split; [rewrite <- app_assoc in S; eapply sees_adv; eauto|].
  unfold adv; cbn. rewrite E. cbn. eexists. split; [reflexivity|]. cbn. rewrite L, lenN_app. lia.
Qed.
Lemma within_avail : forall data r a b rest n, within data r (a ++ b) rest -> lenN a = n -> avail n r.
Proof. intros data r a b rest n [_ (bd & E & L)] H. unfold avail. rewrite E, L, lenN_app. lia. Qed.
Lemma within_next : forall data r b l rest m, within data r (enc b ++ l) rest -> hd_ok b ->
  next data m r = Ok (Some (mkAi (r_pos r) (lenN (enc b)) false (Fourcc (box_name b))), adv 8 r).
Proof.
  intros data r b l rest m [S (bd & E & L)] H. rewrite lenN_app in L. pose proof H as (_ & _ & L1 & L2 & _).
  unfold next. rewrite E. replace (b_rem bd =? 0) with false by lia. replace (b_rem bd <? 8) with false by lia.
  rewrite <- app_assoc in S. eapply read_info_hd; eauto; [lia|]. unfold avail. rewrite E. lia.
Qed.
Lemma within_skip : forall data r b l rest, within data r (enc b ++ l) rest -> hd_ok b ->
  skip_atom false (lenN (enc b)) (adv 8 r) = Ok (adv (lenN (enc b)) r) /\ within data (adv (lenN (enc b)) r) l rest.
Proof.
  intros data r b l rest H (_ & _ & L1 & L2 & _). split; [|eapply within_adv; eauto]. rewrite skip_box by lia. rewrite adv_adv. do 2 f_equal. lia.
Qed.
Lemma within_end : forall data r rest m, within data r [] rest -> next data m r = Ok (None, r).
Proof. intros data r rest m [S (bd & E & L)]. unfold next. rewrite E, L. reflexivity. Qed.
Lemma within_len : forall data r l rest, within data r l rest -> lenN l <= lenN data.
Proof. intros data r l rest [H _]. apply sees_len in H. rewrite lenN_app in H. lia. Qed.

(** ** Atoms that are passed over *)
Lemma parse_boring : forall data o l fuel r x rest tr il, within data r (encs l ++ x) rest -> Forall hd_ok l -> Forall boring l ->
  (length l <= fuel)%nat ->
  moov_parse fuel data o r tr il = moov_parse (fuel - length l) data o (adv (lenN (encs l)) r) tr il.
Proof.
  intros data o. induction l as [|b l IH]; intros fuel r x rest tr il HW HH HB HF.
  - change (lenN (encs [])) with 0. rewrite adv_0. cbn [length]. now rewrite Nat.sub_0_r.
  - destruct fuel; [cbn in HF; lia|]. inversion HH; subst. inversion HB as [|? ? [B1 B2] HB']; subst. rewrite encs_cons, <- app_assoc in HW.
    cbn [moov_parse]. rewrite (within_next _ _ _ _ _ _ HW H1). cbn [a_ident a_ext a_len]. rewrite !is_fourcc_neq by auto. cbn [andb].
    destruct (within_skip _ _ _ _ _ HW H1) as [E HW']. rewrite E. cbn [bind].
    rewrite (IH fuel _ x rest) by (auto; cbn in HF; lia). rewrite adv_adv, encs_cons, lenN_app. reflexivity.
Qed.
Lemma hd_kids : forall s id ks, box_ok (Node s id ks) -> Forall hd_ok ks.
Proof. intros s id ks H. apply box_ok_node in H. apply Forall_hd, H. Qed.
Lemma parse_trak : forall data o b fuel r x rest tr il, mo_props o = true -> within data r (enc b ++ x) rest -> box_ok b ->
  quiet_trak b -> box_name b = $"trak" -> lenN (enc b) <= N.of_nat fuel ->
  exists tr' fuel', moov_parse fuel data o r tr il = moov_parse fuel' data o (adv (lenN (enc b)) r) tr' il /\ N.of_nat fuel <= N.of_nat fuel' + lenN (enc b).
Proof.
  intros data o b fuel r x rest tr il HP HW HO HQ HN HF. pose proof (box_ok_hd _ HO) as HD. pose proof HD as (_ & _ & L1 & L2 & _).
  destruct (HQ HN) as (s & ks & -> & HK). pose proof (hd_kids _ _ _ HO) as HH.
  assert (LE : lenN (enc (Node s ($"trak") ks)) = 8 + lenN (encs ks)) by (cbn [enc]; apply lenN_hd; reflexivity).
  destruct fuel as [|fuel]; [lia|]. cbn [moov_parse]. rewrite (within_next _ _ _ _ _ _ HW HD). cbn [a_ident a_len box_name].
  rewrite is_fourcc_refl, HP. cbn [andb]. rewrite LE in *.
  assert (HW8 : within data (adv 8 r) (encs ks ++ x) rest).
  { eapply within_adv with (a := be_enc 4 s ++ $"trak"); [|rewrite lenN_app, be4_len; reflexivity].
    cbn [enc] in HW. fold (encs ks) in HW. now rewrite <- !app_assoc in *. }
  pose proof (within_len _ _ _ _ HW8) as LD. rewrite lenN_app in LD. pose proof (boxes_len _ HH) as LK.
  assert (AV : avail (lenN (encs ks)) (adv 8 r)) by (eapply within_avail; eauto).
  pose proof HW8 as [SE _]. rewrite <- app_assoc in SE.
  destruct HK as [HK|(t1 & y & t2 & -> & N1 & NY & T1 & T2)].
  - replace (8 + lenN (encs ks)) with (lenN (encs ks) + 8) by lia.
    rewrite (find_child_none _ _ _ _ _ _ _ SE HH HK AV) by (unfold lenN in *; lia). cbn [bind]. rewrite adv_adv.
    exists tr, fuel. split; [do 2 f_equal; lia|lia].
  - apply Forall_app in HH. destruct HH as [H1 H2]. inversion H2 as [|? ? HY H3]; subst.
    rewrite encs_app, encs_cons in *. rewrite !lenN_app in *.
    rewrite <- !app_assoc in SE.
    pose proof HY as (_ & _ & Y1 & Y2 & _).
    rewrite (find_child_found data (mo_mode o) ($"mdia") t1 y (lenN (encs t2) + 8)) with (rest := encs t2 ++ x ++ rest); auto; try lia.
    + cbn [bind a_ext a_len].
      assert (HW9 : within data (adv (lenN (encs t1)) (adv 8 r)) (enc y ++ encs t2 ++ x) rest).
      { eapply within_adv with (a := encs t1); [|reflexivity]. now rewrite <- !app_assoc in *. }
      rewrite <- adv_adv. destruct (within_skip _ _ _ _ _ HW9 HY) as [E HW']. rewrite E. cbn [bind].
      rewrite (parse_boring data o t2 fuel _ x rest) ; auto.
      * eexists _, _. split; [rewrite !adv_adv; do 2 f_equal; lia|]. pose proof (boxes_len _ H3). unfold lenN in *. lia.
      * unfold none_named in *. rewrite Forall_forall in *. intros z Z. split; auto.
      * pose proof (boxes_len _ H3). unfold lenN in *. lia.
    + eapply Forall_impl; [|exact H1]. intros z (_ & _ & _ & Z & _). lia.
    + eapply avail_le; [|exact AV]. lia.
    + pose proof (boxes_len _ H1). unfold lenN in *. lia.
Qed.
Lemma parse_quiet : forall data o l fuel r x rest tr il, within data r (encs l ++ x) rest -> boxes_ok l -> quiet o l -> none_named ($"udta") l ->
  lenN (encs l) <= N.of_nat fuel ->
  exists tr' fuel', moov_parse fuel data o r tr il = moov_parse fuel' data o (adv (lenN (encs l)) r) tr' il /\ N.of_nat fuel <= N.of_nat fuel' + lenN (encs l).
Proof.
  intros data o. induction l as [|b l IH]; intros fuel r x rest tr il HW HO HQ HN HF.
  - exists tr, fuel. change (lenN (encs [])) with 0. rewrite adv_0. split; [reflexivity|lia].
  - inversion HO; subst. inversion HN; subst. rewrite encs_cons, <- app_assoc in HW. rewrite encs_cons, lenN_app in *.
    pose proof (box_ok_hd _ H1) as HD. pose proof HD as (_ & _ & L1 & L2 & _).
    assert (HQ' : quiet o l) by (intros X; specialize (HQ X); now inversion HQ).
    destruct (within_skip _ _ _ _ _ HW HD) as [E HW'].
    assert (ST : exists tr' fuel', moov_parse fuel data o r tr il = moov_parse fuel' data o (adv (lenN (enc b)) r) tr' il /\ N.of_nat fuel <= N.of_nat fuel' + lenN (enc b)).
    { destruct (mo_props o) eqn:P.
      - destruct (list_eqb (box_name b) ($"trak")) eqn:T.
        + apply list_eqb_eq in T. specialize (HQ P). inversion HQ; subst. eapply parse_trak; eauto. lia.
        + assert (T' : box_name b <> $"trak") by (intros X; rewrite X, list_eqb_refl in T; discriminate).
          exists tr, (fuel - 1)%nat. split; [|lia]. destruct fuel; [lia|]. cbn [moov_parse]. rewrite (within_next _ _ _ _ _ _ HW HD). cbn [a_ident a_ext a_len].
          rewrite !is_fourcc_neq by auto. cbn [andb]. rewrite E. cbn [bind]. f_equal. lia.
      - exists tr, (fuel - 1)%nat. split; [|lia]. destruct fuel; [lia|]. cbn [moov_parse]. rewrite (within_next _ _ _ _ _ _ HW HD). cbn [a_ident a_ext a_len].
        rewrite P, Bool.andb_false_r, is_fourcc_neq by auto. cbn [andb]. rewrite E. cbn [bind]. f_equal. lia. }
    destruct ST as (tr1 & f1 & -> & F1).
    destruct (IH f1 (adv (lenN (enc b)) r) x rest tr1 il HW' H2 HQ' H4) as (tr2 & f2 & -> & F2); [lia|].
    exists tr2, f2. rewrite adv_adv. split; [reflexivity|lia].
Qed.
(** ** Searching with limits *)
Lemma find_in_found : forall data m want a b x rest limit fuel seen r,
  within data r (encs a ++ enc b ++ x) rest -> Forall hd_ok a -> hd_ok b -> none_named want a -> box_name b = want ->
  seen + lenN (encs a) < limit -> (length a < fuel)%nat ->
  find_in fuel data m want limit seen r = Ok (Some (mkAi (r_pos r + lenN (encs a)) (lenN (enc b)) false (Fourcc want)), adv (lenN (encs a) + 8) r).
Proof.
  intros data m want a b x rest limit. induction a as [|y a IH]; intros fuel seen r HW HA HB HN HE HL HF.
  - destruct fuel; [inversion HF|]. change (lenN (encs [])) with 0 in *. cbn [find_in]. replace (limit <=? seen) with false by lia.
    rewrite (within_next _ _ _ _ _ _ HW HB). cbn [bind a_ident]. rewrite HE, is_fourcc_refl, N.add_0_r. reflexivity.
  - destruct fuel; [inversion HF|]. inversion HA; subst. inversion HN; subst. rewrite encs_cons, <- app_assoc in HW. rewrite encs_cons, lenN_app in *.
    cbn [find_in]. replace (limit <=? seen) with false by lia. rewrite (within_next _ _ _ _ _ _ HW H1). cbn [bind a_ident a_ext a_len].
    rewrite is_fourcc_neq by auto. destruct (within_skip _ _ _ _ _ HW H1) as [E HW']. rewrite E. cbn [bind].
    rewrite IH; auto; try lia.
    + rewrite adv_pos, adv_adv. replace (r_pos r + lenN (enc y) + lenN (encs a)) with (r_pos r + (lenN (enc y) + lenN (encs a))) by lia. replace (lenN (enc y) + (lenN (encs a) + 8)) with (lenN (enc y) + lenN (encs a) + 8) by lia. reflexivity.
    + cbn in HF; lia.
Qed.
Lemma find_in_none : forall data m want a x rest fuel limit seen r,
  within data r (encs a ++ x) rest -> Forall hd_ok a -> none_named want a -> limit = seen + lenN (encs a) -> (length a < fuel)%nat ->
  find_in fuel data m want limit seen r = Ok (None, adv (lenN (encs a)) r).
Proof.
  intros data m want a x rest. induction a as [|y a IH]; intros fuel limit seen r HW HA HN HL HF.
  - destruct fuel; [inversion HF|]. change (lenN (encs [])) with 0 in *. cbn [find_in]. replace (limit <=? seen) with true by lia. rewrite adv_0. reflexivity.
  - destruct fuel; [inversion HF|]. inversion HA; subst. inversion HN; subst. rewrite encs_cons, <- app_assoc in HW. rewrite encs_cons, lenN_app in *.
    pose proof H1 as (_ & _ & L1 & L2 & _).
    cbn [find_in]. replace (_ <=? seen) with false by lia. rewrite (within_next _ _ _ _ _ _ HW H1). cbn [bind a_ident a_ext a_len].
    rewrite is_fourcc_neq by auto. destruct (within_skip _ _ _ _ _ HW H1) as [E HW']. rewrite E. cbn [bind].
    rewrite IH; auto; try lia.
    + rewrite adv_adv. reflexivity.
    + cbn in HF; lia.
Qed.
(** ** The tag in [udta] *)
Lemma within_inner : forall data r a b x rest, within data r (a ++ b ++ x) rest -> within data r ((a ++ b) ++ x) rest.
Proof. intros. now rewrite <- app_assoc. Qed.
Definition ilst_at (data : bytes) (o : mopts) (limit seen : N) (r : reader) : res mp4_error (option (list atom) * reader) :=
  let? (ilst, r) := find_in (S (length data)) data (mo_mode o) ($"ilst") limit seen r in
  match ilst with
  | None => Ok (None, r)
  | Some i => let? (c, r) := rd_exact data (a_len i - 8) r in let? l := parse_ilst o c in Ok (Some l, r)
  end.
Lemma udta_meta : forall data o u1 M vers kids x rest limit r,
  within data r (encs u1 ++ enc (Leaf M ($"meta") (vers ++ encs kids)) ++ x) rest -> Forall hd_ok u1 -> none_named ($"meta") u1 ->
  hd_ok (Leaf M ($"meta") (vers ++ encs kids)) -> Forall hd_ok kids -> meta_start vers kids ->
  8 + lenN (encs u1) < limit -> (forall b, r_bound r = Some b -> b_rem b < 2 ^ 32) ->
  exists (full : bool) r', r' = adv (lenN (encs u1) + 8 + lenN vers) r /\ within data r' (encs kids ++ x) rest /\
    (if full then 12 else 8) = 8 + lenN vers /\
    ilst_from_udta data o limit r =
      ilst_at data o (8 + lenN (vers ++ encs kids)) (8 + lenN vers) r'.
Proof.
  intros data o u1 M vers kids x rest limit r HW HU HN HM HK HS HL HB.
  pose proof (boxes_len _ HU) as LU. pose proof (within_len _ _ _ _ HW) as LD. rewrite !lenN_app in LD.
  assert (F : find_in (S (length data)) data (mo_mode o) ($"meta") limit 8 r = Ok (Some (mkAi (r_pos r + lenN (encs u1)) (lenN (enc (Leaf M ($"meta") (vers ++ encs kids)))) false (Fourcc ($"meta"))), adv (lenN (encs u1) + 8) r)).
  { eapply find_in_found; eauto; unfold lenN in *; lia. }
  assert (LE : lenN (enc (Leaf M ($"meta") (vers ++ encs kids))) = 8 + lenN (vers ++ encs kids)) by (cbn [enc]; apply lenN_hd; reflexivity).
  assert (HW8 : within data (adv (lenN (encs u1) + 8) r) (vers ++ encs kids ++ x) rest).
  { rewrite <- adv_adv. eapply within_adv with (a := be_enc 4 M ++ $"meta"); [|rewrite lenN_app, be4_len; reflexivity].
    eapply within_adv with (a := encs u1); [|reflexivity]. cbn [enc] in HW. now rewrite <- !app_assoc in *. }
  assert (K8 : 8 <= lenN (encs kids)).
  { destruct kids as [|y kids]; [contradiction|]. inversion HK; subst. destruct H1 as (_ & _ & _ & L1 & _). rewrite encs_cons, lenN_app. lia. }
  destruct (meta_is_full_ok data (adv (lenN (encs u1) + 8) r) vers kids (x ++ rest)) as (full & r' & FE & RE & F1 & F2); auto.
  - destruct HW8 as [SE _]. now rewrite <- !app_assoc in SE.
  - rewrite app_assoc in HW8. eapply avail_le; [|eapply within_avail; [exact HW8|reflexivity]]. rewrite lenN_app. lia.
  - rewrite lenN_app. lia.
  - destruct HW8 as [_ (bd & E & L)]. intros b EB. destruct (r_bound r) as [b0|] eqn:RB; unfold adv in EB; cbn [r_bound] in EB; rewrite RB in EB; cbn in EB; [|discriminate].
    inversion EB; subst. cbn. specialize (HB b0 eq_refl). lia.
  - exists full, r'. rewrite RE, adv_adv. split; [reflexivity|]. split.
    + rewrite <- adv_adv. eapply within_adv; eauto.
    + assert (FV : (if full then 12 else 8) = 8 + lenN vers) by (destruct full; [rewrite F1 by reflexivity; reflexivity|rewrite F2 by reflexivity; reflexivity]).
      split; [exact FV|]. unfold ilst_from_udta. rewrite F. cbn [bind]. rewrite FE. cbn [bind a_len]. rewrite LE, FV, RE, adv_adv. reflexivity.
Qed.
Lemma udta_tag : forall data o u1 M vers a s c b x rest limit r,
  within data r (encs u1 ++ enc (Leaf M ($"meta") (vers ++ encs (a ++ Leaf s ($"ilst") c :: b))) ++ x) rest -> Forall hd_ok u1 -> none_named ($"meta") u1 ->
  hd_ok (Leaf M ($"meta") (vers ++ encs (a ++ Leaf s ($"ilst") c :: b))) -> Forall hd_ok (a ++ Leaf s ($"ilst") c :: b) -> meta_start vers (a ++ Leaf s ($"ilst") c :: b) ->
  none_named ($"ilst") a ->
  8 + lenN (encs u1) < limit -> (forall b, r_bound r = Some b -> b_rem b < 2 ^ 32) ->
  exists r', r' = adv (lenN (encs u1) + 8 + lenN vers + lenN (encs a) + 8 + lenN c) r /\ within data r' (encs b ++ x) rest /\
    ilst_from_udta data o limit r = let? l := parse_ilst o c in Ok (Some l, r').
Proof.
  intros data o u1 M vers a s c b x rest limit r HW HU HN HM HK HS HI HL HB.
  destruct (udta_meta data o u1 M vers _ x rest limit r HW HU HN HM HK HS HL HB) as (full & r1 & E1 & W1 & FV & E).
  apply Forall_app in HK. destruct HK as [HA HK]. inversion HK as [|? ? HX HBB]; subst.
  rewrite encs_app, encs_cons, <- !app_assoc in W1.
  assert (LE : lenN (enc (Leaf s ($"ilst") c)) = 8 + lenN c) by (cbn [enc]; apply lenN_hd; reflexivity).
  pose proof (boxes_len _ HA) as LA. pose proof (within_len _ _ _ _ W1) as LD. rewrite !lenN_app in LD.
  set (r1 := adv (lenN (encs u1) + 8 + lenN vers) r) in *.
  assert (WC : within data (adv (lenN (encs a) + 8) r1) (c ++ encs b ++ x) rest).
  { rewrite <- adv_adv. eapply within_adv with (a := be_enc 4 s ++ $"ilst"); [|rewrite lenN_app, be4_len; reflexivity].
    eapply within_adv with (a := encs a); [|reflexivity]. cbn [enc] in W1. now rewrite <- !app_assoc in *. }
  exists (adv (lenN (encs a) + 8 + lenN c) r1). split; [unfold r1; rewrite adv_adv; f_equal; lia|]. split.
  - rewrite <- adv_adv. eapply within_adv; eauto.
  - rewrite E. unfold ilst_at. rewrite (find_in_found data (mo_mode o) ($"ilst") a (Leaf s ($"ilst") c) (encs b ++ x) rest); auto.
    + cbn [bind a_len]. rewrite LE. replace (8 + lenN c - 8) with (lenN c) by lia.
      destruct WC as [SC BC]. rewrite <- !app_assoc in SC. erewrite rd_exact_app; eauto; [|destruct BC as (bd & E2 & L2); unfold avail; rewrite E2, L2, lenN_app; lia].
      cbn [bind]. rewrite adv_adv. reflexivity.
    + rewrite !lenN_app, encs_app, encs_cons, !lenN_app, LE. lia.
    + unfold lenN in *. lia.
Qed.
Lemma udta_no_tag : forall data o u1 M vers kids x rest limit r,
  within data r (encs u1 ++ enc (Leaf M ($"meta") (vers ++ encs kids)) ++ x) rest -> Forall hd_ok u1 -> none_named ($"meta") u1 ->
  hd_ok (Leaf M ($"meta") (vers ++ encs kids)) -> Forall hd_ok kids -> meta_start vers kids ->
  none_named ($"ilst") kids ->
  8 + lenN (encs u1) < limit -> (forall b, r_bound r = Some b -> b_rem b < 2 ^ 32) ->
  exists r', r' = adv (lenN (encs u1) + 8 + lenN vers + lenN (encs kids)) r /\ within data r' x rest /\ ilst_from_udta data o limit r = Ok (None, r').
Proof.
  intros data o u1 M vers kids x rest limit r HW HU HN HM HK HS HI HL HB.
  destruct (udta_meta data o u1 M vers _ x rest limit r HW HU HN HM HK HS HL HB) as (full & r1 & E1 & W1 & FV & E).
  pose proof (boxes_len _ HK) as LA. pose proof (within_len _ _ _ _ W1) as LD. rewrite !lenN_app in LD.
  exists (adv (lenN (encs kids)) r1). split; [rewrite E1, adv_adv; reflexivity|]. split; [eapply within_adv; eauto|].
  rewrite E. unfold ilst_at. erewrite find_in_none; eauto.
  - reflexivity.
  - rewrite lenN_app. lia.
  - unfold lenN in *. lia.
Qed.
(** ** The whole file *)
Lemma moov_find_ok : forall data m pre b l r fuel, within data r (encs pre ++ enc b ++ l) [] -> Forall hd_ok pre -> hd_ok b ->
  none_named ($"moov") pre -> box_name b = $"moov" -> (length pre < fuel)%nat ->
  exists r', moov_find fuel data m r = Ok (mkAi (r_pos r + lenN (encs pre)) (lenN (enc b)) false (Fourcc ($"moov")), r') /\ r_pos r' = r_pos r + lenN (encs pre) + 8.
Proof.
  intros data m pre b l. induction pre as [|y a IH]; intros r fuel HW HA HB HN HE HF.
  - destruct fuel; [inversion HF|]. change (lenN (encs [])) with 0 in *. cbn [moov_find].
    rewrite (within_next _ _ _ _ _ _ HW HB). cbn [bind a_ident]. rewrite HE, is_fourcc_refl, N.add_0_r. eexists. split; [reflexivity|]. apply adv_pos.
  - destruct fuel; [inversion HF|]. inversion HA; subst. inversion HN; subst. rewrite encs_cons, <- app_assoc in HW. rewrite encs_cons, lenN_app in *.
    cbn [moov_find]. rewrite (within_next _ _ _ _ _ _ HW H1). cbn [bind a_ident a_ext a_len].
    rewrite is_fourcc_neq by auto. destruct (within_skip _ _ _ _ _ HW H1) as [E HW']. rewrite E. cbn [bind].
    destruct (IH (adv (lenN (enc y)) r) fuel) as (r' & -> & P); auto; [cbn in HF; lia|]. rewrite adv_pos, N.add_assoc in *. exists r'. split; auto.
Qed.
Lemma boxes_hd_size : forall l, boxes_ok l -> Forall hd_ok l. Proof. exact Forall_hd. Qed.
Lemma moov_start : forall top pre S ks post m, boxes_ok top -> ftyp_first top -> top = pre ++ Node S ($"moov") ks :: post -> none_named ($"moov") pre ->
  exists s r', verify_mp4 (encs top) m (atom_reader (encs top)) = Ok (s, r') /\
  exists r2, moov_find (Datatypes.S (length (encs top))) (encs top) m r' = Ok (mkAi (lenN (encs pre)) (lenN (enc (Node S ($"moov") ks))) false (Fourcc ($"moov")), r2) /\
    within (encs top) (reset_bounds (lenN (encs pre) + 8) (lenN (encs ks)) r2) (encs ks) (encs post).
Proof.
  intros top pre S ks post m HO HF ET HN. destruct (verify_ok top m HO HF) as (b & l & s & EB & V).
  exists s, (adv (lenN (enc b)) (atom_reader (encs top))). split; [exact V|].
  pose proof (Forall_hd _ HO) as HH. destruct pre as [|b' pre].
  - exfalso. rewrite ET in HF. exact HF.
  - rewrite EB in ET. injection ET as <- EL. apply Forall_cons_iff in HN. destruct HN as [N1 N2]. pose proof HH as HH'. rewrite EB, EL in HH'. apply Forall_cons_iff in HH'. destruct HH' as [HB HP].
    apply Forall_app in HP. destruct HP as [HP HP2]. apply Forall_cons_iff in HP2. destruct HP2 as [HM _].
    assert (W0 : within (encs top) (adv (lenN (enc b)) (atom_reader (encs top))) (encs pre ++ enc (Node S ($"moov") ks) ++ encs post) []).
    { eapply within_adv with (a := enc b); [|reflexivity]. split; [|eexists; split; [reflexivity|cbn [b_rem]; f_equal]].
      - unfold sees. cbn [atom_reader r_pos]. rewrite app_nil_r, EB, EL, encs_cons, encs_app, encs_cons. reflexivity.
      - rewrite EB, EL, encs_cons, encs_app, encs_cons. reflexivity. }
    pose proof (boxes_len _ HP) as LP. pose proof (within_len _ _ _ _ W0) as LD. rewrite !lenN_app in LD.
    destruct (moov_find_ok (encs top) m pre _ _ _ (Datatypes.S (length (encs top))) W0 HP HM N2 eq_refl) as (r2 & E & P); [unfold lenN in *; lia|].
    rewrite adv_pos in *. cbn [atom_reader r_pos] in *. exists r2. rewrite encs_cons, lenN_app. split; [exact E|].
    split; [|eexists; split; reflexivity]. unfold sees. cbn [reset_bounds r_pos]. rewrite P.
    assert (EQ : encs top = (enc b ++ encs pre ++ be_enc 4 S ++ $"moov") ++ encs ks ++ encs post).
    { rewrite EB, EL, encs_cons, encs_app, encs_cons. cbn [enc]. fold (encs ks). now rewrite <- !app_assoc. }
    rewrite EQ. apply dropN_app. rewrite !lenN_app, be4_len. change (lenN ($"moov")) with 4. lia.
Qed.
Lemma quiet_app : forall o a b, quiet o (a ++ b) -> quiet o a /\ quiet o b.
Proof. intros o a b H. split; intros P; specialize (H P); apply Forall_app in H; tauto. Qed.
Lemma read_upto : forall o pre k1 u1 vers kids u2 k2 post, mo_tags o = true -> read_file o pre k1 u1 vers kids u2 k2 post ->
  let top := mp4_file pre k1 u1 (vers ++ encs kids) u2 k2 post in
  let M := 8 + lenN (vers ++ encs kids) in
  exists brand tr r fuel, within (encs top) r (encs u1 ++ enc (Leaf M ($"meta") (vers ++ encs kids)) ++ encs u2 ++ encs k2) (encs post) /\
    (forall b, r_bound r = Some b -> b_rem b < 2 ^ 32) /\
    lenN (encs u1) + M + lenN (encs u2) + lenN (encs k2) + 1 <= N.of_nat fuel /\
    mp4_read (encs top) o =
      let? (traks, ilst) := (let? (t, r) := ilst_from_udta (encs top) o (lenN (encs u1) + M + lenN (encs u2)) r in moov_parse fuel (encs top) o r tr t) in
      Ok (brand, traks, ilst).
Proof.
  intros o pre k1 u1 vers kids u2 k2 post HT (HO & HF & N1 & N2 & N3 & HI & HS & HQ & HB) top M.
  pose proof (file_parts _ _ _ _ _ _ _ HO) as PARTS. cbv zeta in PARTS. destruct PARTS as (P1 & P2 & P3 & P4 & P5 & P6 & PU & PM & LS & LU & LM & PMV).
  fold M in PU, PM, LS, LU, LM, PMV. set (meta := vers ++ encs kids) in *. set (U := udta_size u1 M u2) in *. set (S := moov_size k1 U k2) in *.
  assert (ET : top = pre ++ Node S ($"moov") (moov_kids k1 U u1 M meta u2 k2) :: post) by (unfold top; rewrite file_tree; reflexivity).
  destruct (moov_start top pre S (moov_kids k1 U u1 M meta u2 k2) post (mo_mode o) HO HF ET N1) as (brand & r1 & V & r2 & MF & W).
  set (r3 := reset_bounds (lenN (encs pre) + 8) (lenN (encs (moov_kids k1 U u1 M meta u2 k2))) r2) in *.
  assert (LEM : lenN (enc (Node S ($"moov") (moov_kids k1 U u1 M meta u2 k2))) = 8 + lenN (encs (moov_kids k1 U u1 M meta u2 k2))) by (cbn [enc]; apply lenN_hd; reflexivity).
  assert (LMK : lenN (encs (moov_kids k1 U u1 M meta u2 k2)) = lenN (encs k1) + U + lenN (encs k2)).
  { unfold moov_kids. rewrite !encs_app, encs_one, !lenN_app. unfold M at 1. rewrite udta_len. fold M. fold U. lia. }
  assert (W' := W). unfold moov_kids in W'. rewrite !encs_app, encs_one in W'.
  destruct (quiet_app _ _ _ HQ) as [Q1 Q2]. unfold none_named in N2. apply Forall_app in N2. destruct N2 as [N2 N4].
  destruct (parse_quiet (encs top) o k1 (Datatypes.S (length (encs top))) r3 _ _ [] None W' P2 Q1 N2) as (tr & fuel & EP & FP).
  { pose proof (within_len _ _ _ _ W'). rewrite !lenN_app in H. unfold lenN in *. lia. }
  assert (W2 : within (encs top) (adv (lenN (encs k1)) r3) (enc (udta_box U u1 M meta u2) ++ encs k2) (encs post)) by (eapply within_adv; eauto).
  pose proof (within_len _ _ _ _ W') as LD. rewrite !lenN_app in LD.
  assert (LUB : lenN (enc (udta_box U u1 M meta u2)) = U) by (unfold M at 1; rewrite udta_len; reflexivity). rewrite LUB in LD.
  destruct fuel as [|fuel]; [exfalso; unfold lenN in *; unfold U, udta_size in LD; lia|].
  exists brand, tr, (adv 8 (adv (lenN (encs k1)) r3)), fuel. split; [|split; [|split]].
  - eapply within_adv with (a := be_enc 4 U ++ $"udta"); [|rewrite lenN_app, be4_len; reflexivity]. unfold udta_box in W2. cbn [enc] in W2.
    fold (encs (u1 ++ [Leaf M ($"meta") meta] ++ u2)) in W2. rewrite !encs_app, encs_one in W2. cbn [enc] in *. now rewrite <- !app_assoc in *.
  - intros bd EB. unfold adv, r3, reset_bounds in EB. cbn in EB. inversion EB; subst bd. cbn [b_rem]. rewrite LMK. unfold S, moov_size in LS. lia.
  - unfold U, udta_size in LD. unfold lenN in *. lia.
  - unfold mp4_read. rewrite V. cbn [bind]. rewrite MF. cbn [bind a_start a_len]. rewrite LEM.
    replace (8 + lenN (encs (moov_kids k1 U u1 M meta u2 k2)) - 8) with (lenN (encs (moov_kids k1 U u1 M meta u2 k2))) by lia. fold r3.
    rewrite EP. cbn [moov_parse]. rewrite (within_next _ _ _ _ _ _ W2 (box_ok_hd _ PU)). cbn [a_ident a_len]. rewrite LUB. unfold udta_box. cbn [box_name].
    rewrite is_fourcc_neq by discriminate. cbn [andb]. rewrite is_fourcc_refl, HT. cbn [andb].
    replace (U - 8) with (lenN (encs u1) + M + lenN (encs u2)) by (unfold U, udta_size; lia).
    destruct (ilst_from_udta _ _ _ _) as [[[t|] r4]|e|]; reflexivity.
Qed.
Lemma parse_end : forall data o r rest fuel tr il, within data r [] rest -> (0 < fuel)%nat -> moov_parse fuel data o r tr il = Ok (tr, il).
Proof. intros. destruct fuel; [lia|]. cbn [moov_parse]. erewrite within_end by eauto. reflexivity. Qed.
Lemma parse_rest : forall data o l k2 r rest fuel tr il, within data r (encs l ++ encs k2) rest -> Forall hd_ok l -> Forall boring l ->
  boxes_ok k2 -> quiet o k2 -> none_named ($"udta") k2 -> lenN (encs l) + lenN (encs k2) < N.of_nat fuel ->
  exists tr', moov_parse fuel data o r tr il = Ok (tr', il).
Proof.
  intros data o l k2 r rest fuel tr il HW HH HB HO HQ HN HF. pose proof (boxes_len _ HH) as LH.
  rewrite (parse_boring data o l fuel r (encs k2) rest tr il HW HH HB) by (unfold lenN in *; lia).
  assert (W2 : within data (adv (lenN (encs l)) r) (encs k2 ++ []) rest) by (rewrite app_nil_r; eapply within_adv; eauto).
  destruct (parse_quiet data o k2 (fuel - length l) _ [] rest tr il W2 HO HQ HN) as (tr' & f' & -> & F); [unfold lenN in *; lia|].
  exists tr'. eapply parse_end; [eapply within_adv; eauto|]. unfold lenN in *; lia.
Qed.
Lemma read_tag : forall o pre k1 u1 vers a s c b u2 k2 post, mo_tags o = true ->
  let kids := a ++ Leaf s ($"ilst") c :: b in
  read_file o pre k1 u1 vers kids u2 k2 post -> none_named ($"ilst") a -> Forall boring b ->
  exists brand tr, mp4_read (encs (mp4_file pre k1 u1 (vers ++ encs kids) u2 k2 post)) o = (let? l := parse_ilst o c in Ok (brand, tr, Some l)).
Proof.
  intros o pre k1 u1 vers a s c b u2 k2 post HT kids HR NA HB.
  destruct (read_upto o pre k1 u1 vers kids u2 k2 post HT HR) as (brand & tr & r & fuel & W & B & F & ->).
  destruct HR as (HO & HF & N1 & N2 & N3 & HI & HS & HQ & HB2).
  pose proof (file_parts _ _ _ _ _ _ _ HO) as PARTS. cbv zeta in PARTS. destruct PARTS as (P1 & P2 & P3 & P4 & P5 & P6 & PU & PM & LS & LU & LM & PMV).
  set (top := mp4_file pre k1 u1 (vers ++ encs kids) u2 k2 post) in *. set (M := 8 + lenN (vers ++ encs kids)) in *.
  assert (HK : Forall hd_ok kids) by (eapply Forall_impl; [|exact HI]; apply item_ok_hd).
  destruct (udta_tag (encs top) o u1 M vers a s c b (encs u2 ++ encs k2) (encs post) (lenN (encs u1) + M + lenN (encs u2)) r) as (r' & E' & W' & EQ); auto.
  - now apply Forall_hd.
  - now apply box_ok_hd.
  - assert (8 <= lenN (encs kids)).
    { unfold kids. rewrite encs_app, encs_cons, !lenN_app. cbn [enc]. rewrite lenN_hd by reflexivity. lia. }
    unfold M. rewrite lenN_app. lia.
  - rewrite EQ. destruct (quiet_app _ _ _ HQ) as [Q1 Q2]. unfold none_named in N2. apply Forall_app in N2. destruct N2 as [N2 N4].
    unfold kids in HK. apply Forall_app in HK. destruct HK as [HKA HKB]. apply Forall_cons_iff in HKB. destruct HKB as [HKI HKB].
    destruct (parse_ilst o c) as [l|e|]; cbn [bind]; try (exists brand, tr; reflexivity).
    destruct (parse_rest (encs top) o (b ++ u2) k2 r' (encs post) fuel tr (Some l)) as (tr' & ->); auto.
    + rewrite encs_app, <- app_assoc. exact W'.
    + apply Forall_app; split; auto. now apply Forall_hd.
    + apply Forall_app; auto.
    + unfold M, kids in F. rewrite encs_app, encs_cons, !lenN_app in *. cbn [enc] in F. rewrite lenN_hd in F by reflexivity.
      rewrite ?encs_app, ?encs_cons, ?lenN_app in F. lia.
    + exists brand, tr'. reflexivity.
Qed.
Lemma read_none : forall o pre k1 u1 vers kids u2 k2 post, mo_tags o = true ->
  read_file o pre k1 u1 vers kids u2 k2 post -> none_named ($"ilst") kids ->
  exists brand tr, mp4_read (encs (mp4_file pre k1 u1 (vers ++ encs kids) u2 k2 post)) o = Ok (brand, tr, None).
Proof.
  intros o pre k1 u1 vers kids u2 k2 post HT HR NA.
  destruct (read_upto o pre k1 u1 vers kids u2 k2 post HT HR) as (brand & tr & r & fuel & W & B & F & ->).
  destruct HR as (HO & HF & N1 & N2 & N3 & HI & HS & HQ & HB2).
  pose proof (file_parts _ _ _ _ _ _ _ HO) as PARTS. cbv zeta in PARTS. destruct PARTS as (P1 & P2 & P3 & P4 & P5 & P6 & PU & PM & LS & LU & LM & PMV).
  set (top := mp4_file pre k1 u1 (vers ++ encs kids) u2 k2 post) in *. set (M := 8 + lenN (vers ++ encs kids)) in *.
  assert (HK : Forall hd_ok kids) by (eapply Forall_impl; [|exact HI]; apply item_ok_hd).
  destruct (udta_no_tag (encs top) o u1 M vers kids (encs u2 ++ encs k2) (encs post) (lenN (encs u1) + M + lenN (encs u2)) r) as (r' & E' & W' & EQ); auto.
  - now apply Forall_hd.
  - now apply box_ok_hd.
  - assert (8 <= lenN (encs kids)).
    { destruct kids as [|y kids]; [contradiction|]. inversion HK; subst. destruct H1 as (_ & _ & _ & L1 & _). rewrite encs_cons, lenN_app. lia. }
    unfold M. rewrite lenN_app. lia.
  - rewrite EQ. destruct (quiet_app _ _ _ HQ) as [Q1 Q2]. unfold none_named in N2. apply Forall_app in N2. destruct N2 as [N2 N4].
    cbn [bind]. destruct (parse_rest (encs top) o u2 k2 r' (encs post) fuel tr None) as (tr' & ->); auto.
    + now apply Forall_hd.
    + unfold M in F. lia.
    + exists brand, tr'. reflexivity.
Qed.
