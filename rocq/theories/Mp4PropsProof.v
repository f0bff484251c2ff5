From Verif Require Import Base BaseLemmas Str StrLemmas Mode PictureModel FileModel MathModel Mp4Model Mp4WriteModel Mp4Spec Mp4Proof Mp4Proof3 Mp4Proof4 Mp4Proof5 Mp4Proof6 Mp4Proof7 Mp4Proof8 Mp4PropsModel Mp4PropsSpec.

(** ** A reader bounded by the data *)
Definition at_pos (data : bytes) (p : N) : reader := mkRd p (Some (mkBd 0 (lenN data - p) (lenN data))).
Lemma at_adv : forall data n p, adv n (at_pos data p) = at_pos data (p + n).
Proof. intros. unfold adv, at_pos; cbn. do 3 f_equal. lia. Qed.
Lemma at_start : forall data, atom_reader data = at_pos data 0.
Proof. intros. unfold atom_reader, at_pos. now rewrite N.sub_0_r. Qed.
Lemma at_seek : forall data p q, p <= lenN data -> seek_start p (at_pos data q) = at_pos data p.
Proof. intros. unfold seek_start, at_pos; cbn. replace (lenN data <? p) with false by lia. cbn. reflexivity. Qed.
Lemma lenN_drop : forall (l : bytes) n, lenN (dropN n l) = lenN l - n.
Proof. intros. unfold lenN, dropN. rewrite skipn_length. lia. Qed.
Lemma at_within : forall data p l, dropN p data = l -> within data (at_pos data p) l [].
Proof. intros data p l H. split; [unfold sees; cbn; now rewrite app_nil_r|]. eexists. split; [reflexivity|]. cbn. now rewrite <- H, lenN_drop. Qed.
Lemma at_len : forall data p (a : bytes), dropN p data = a -> lenN a <= lenN data - p.
Proof. intros. now rewrite <- H, lenN_drop. Qed.
Lemma at_le : forall data p (a b : bytes), dropN p data = a ++ b -> 0 < lenN a -> p + lenN a <= lenN data.
Proof. intros data p a b H L. apply at_len in H. rewrite lenN_app in H. lia. Qed.
Lemma drop_more : forall data p (a b : bytes) n, dropN p data = a ++ b -> lenN a = n -> dropN (p + n) data = b.
Proof. intros. rewrite <- dropN_dropN, H. now apply dropN_app. Qed.
Lemma at_next : forall data m p b rest, dropN p data = enc b ++ rest -> hd_ok b ->
  next data m (at_pos data p) = Ok (Some (mkAi p (lenN (enc b)) false (Fourcc (box_name b))), at_pos data (p + 8)).
Proof. intros data m p b rest H HB. rewrite (within_next data (at_pos data p) b rest [] m (at_within _ _ _ H) HB), at_adv. reflexivity. Qed.
Lemma at_skip : forall data p b, hd_ok b -> skip_atom false (lenN (enc b)) (at_pos data (p + 8)) = Ok (at_pos data (p + lenN (enc b))).
Proof. intros data p b (_ & _ & L1 & L2 & _). rewrite skip_box, at_adv by lia. do 2 f_equal. lia. Qed.
Lemma at_end : forall data m p, dropN p data = [] -> next data m (at_pos data p) = Ok (None, at_pos data p).
Proof. intros. eapply within_end. now apply at_within. Qed.
Lemma at_exact : forall data p x rest n, dropN p data = x ++ rest -> lenN x = n -> rd_exact data n (at_pos data p) = Ok (x, at_pos data (p + n)).
Proof.
  intros data p x rest n H L. rewrite (rd_exact_app data (at_pos data p) x rest n), at_adv; [reflexivity|exact H|exact L|]. eapply within_avail; [apply at_within; exact H|auto].
Qed.
Lemma at_be : forall data p k v rest n, dropN p data = be_enc k v ++ rest -> n = N.of_nat k -> v < 256 ^ n -> rd_be data n (at_pos data p) = Ok (v, at_pos data (p + n)).
Proof.
  intros data p k v rest n H E L. rewrite (rd_be_app data (at_pos data p) k v rest n), at_adv; auto. eapply within_avail; [apply at_within; exact H|rewrite be_enc_len; auto].
Qed.
Lemma at_own : forall data p k v rest n, dropN p data = be_enc k v ++ rest -> n = N.of_nat k -> v < 256 ^ n -> rd_be_own data n (at_pos data p) = Ok (v, at_pos data (p + n)).
Proof. intros data p k v rest n H E L. rewrite (rd_be_own_app data (at_pos data p) k v rest n), at_adv; auto. Qed.
Lemma at_seek_cur : forall data p n, seek_cur (Z.of_N n) (at_pos data p) = Ok (at_pos data (p + n)).
Proof. intros. now rewrite seek_adv, at_adv. Qed.
(** One byte; some bytes *)
Lemma at_own_raw : forall data p x rest n, dropN p data = x ++ rest -> lenN x = n -> rd_be_own data n (at_pos data p) = Ok (be_dec x, at_pos data (p + n)).
Proof. intros. unfold rd_be_own. rewrite (rd_inner_app data (at_pos data p) x rest n), at_adv by auto. reflexivity. Qed.
Lemma at_be_raw : forall data p x rest n, dropN p data = x ++ rest -> lenN x = n -> rd_be data n (at_pos data p) = Ok (be_dec x, at_pos data (p + n)).
Proof. intros. unfold rd_be. rewrite (at_exact data p x rest n) by auto. reflexivity. Qed.

(** ** The tracks with their media *)
Fixpoint mdia_in (pos : N) (ks : list box) : list atom_info :=
  match ks with [] => [] | k :: l => if list_eqb (box_name k) ($"mdia") then [mkAi pos (lenN (enc k)) false (Fourcc ($"mdia"))] else mdia_in (pos + lenN (enc k)) l end.
Definition mdia_of (pos : N) (b : box) : list atom_info :=
  match b with Node _ id ks => if list_eqb id ($"trak") then mdia_in (pos + 8) ks else [] | Leaf _ _ _ => [] end.
Fixpoint mdias (pos : N) (l : list box) : list atom_info := match l with [] => [] | b :: l => mdia_of pos b ++ mdias (pos + lenN (enc b)) l end.
Lemma mdia_in_app : forall a b pos, none_named ($"mdia") a -> mdia_in pos (a ++ b) = mdia_in (pos + lenN (encs a)) b.
Proof.
  induction a as [|x a IH]; intros b pos H; [change (lenN (encs [])) with 0; now rewrite N.add_0_r|]. inversion H; subst. cbn [app mdia_in]. rewrite (proj2 (list_eqb_neq _ _)) by auto.
  rewrite IH by auto. rewrite encs_cons, lenN_app. f_equal. lia.
Qed.
Lemma mdia_of_other : forall pos b, box_name b <> $"trak" -> mdia_of pos b = [].
Proof. intros pos [s id c|s id ks] H; [reflexivity|]. cbn in *. rewrite (proj2 (list_eqb_neq _ _)) by auto. reflexivity. Qed.
Lemma parse_trak_at : forall data o b fuel r x rest tr il, mo_props o = true -> within data r (enc b ++ x) rest -> box_ok b ->
  quiet_trak b -> box_name b = $"trak" -> lenN (enc b) <= N.of_nat fuel ->
  exists fuel', moov_parse fuel data o r tr il = moov_parse fuel' data o (adv (lenN (enc b)) r) (tr ++ mdia_of (r_pos r) b) il /\ N.of_nat fuel <= N.of_nat fuel' + lenN (enc b).
Proof.
  intros data o b fuel r x rest tr il HP HW HO HQ HN HF. pose proof (box_ok_hd _ HO) as HD. pose proof HD as (_ & _ & L1 & L2 & _).
  destruct (HQ HN) as (s & ks & -> & HK). pose proof (hd_kids _ _ _ HO) as HH.
  assert (LE : lenN (enc (Node s ($"trak") ks)) = 8 + lenN (encs ks)) by (cbn [enc]; apply lenN_hd; reflexivity).
  destruct fuel as [|fuel]; [lia|]. cbn [moov_parse]. rewrite (within_next _ _ _ _ _ _ HW HD). cbn [a_ident a_len box_name].
  rewrite is_fourcc_refl, HP. cbn [andb]. rewrite LE in *. unfold mdia_of. rewrite list_eqb_refl.
  assert (HW8 : within data (adv 8 r) (encs ks ++ x) rest).
  { eapply within_adv with (a := be_enc 4 s ++ $"trak"); [|rewrite lenN_app, be4_len; reflexivity].
    cbn [enc] in HW. fold (encs ks) in HW. now rewrite <- !app_assoc in *. }
  pose proof (within_len _ _ _ _ HW8) as LD. rewrite lenN_app in LD. pose proof (boxes_len _ HH) as LK.
  assert (AV : avail (lenN (encs ks)) (adv 8 r)) by (eapply within_avail; eauto).
  pose proof HW8 as [SE _]. rewrite <- app_assoc in SE.
  destruct HK as [HK|(t1 & y & t2 & -> & N1 & NY & T1 & T2)].
  - replace (8 + lenN (encs ks)) with (lenN (encs ks) + 8) by lia.
    rewrite (find_child_none _ _ _ _ _ _ _ SE HH HK AV) by (unfold lenN in *; lia). cbn [bind]. rewrite adv_adv.
    exists fuel. replace ks with (ks ++ []) at 3 by apply app_nil_r. rewrite mdia_in_app by auto. cbn [mdia_in]. rewrite app_nil_r. split; [do 2 f_equal; lia|lia].
  - apply Forall_app in HH. destruct HH as [H1 H2]. inversion H2 as [|? ? HY H3]; subst.
    rewrite mdia_in_app by auto. cbn [mdia_in]. rewrite NY, list_eqb_refl.
    rewrite encs_app, encs_cons in *. rewrite !lenN_app in *.
    rewrite <- !app_assoc in SE.
    pose proof HY as (_ & _ & Y1 & Y2 & _).
    rewrite (find_child_found data (mo_mode o) ($"mdia") t1 y (lenN (encs t2) + 8)) with (rest := encs t2 ++ x ++ rest); auto; try lia.
    + cbn [bind a_ext a_len].
      assert (HW9 : within data (adv (lenN (encs t1)) (adv 8 r)) (enc y ++ encs t2 ++ x) rest).
      { eapply within_adv with (a := encs t1); [|reflexivity]. now rewrite <- !app_assoc in *. }
      rewrite <- adv_adv. destruct (within_skip _ _ _ _ _ HW9 HY) as [E HW']. rewrite E. cbn [bind].
      rewrite (parse_boring data o t2 fuel _ x rest) ; auto.
      * eexists _. split; [rewrite !adv_adv, adv_pos; do 2 f_equal; lia|]. pose proof (boxes_len _ H3). unfold lenN in *. lia.
      * unfold none_named in *. rewrite Forall_forall in *. intros z Z. split; auto.
      * pose proof (boxes_len _ H3). unfold lenN in *. lia.
    + eapply Forall_impl; [|exact H1]. intros z (_ & _ & _ & Z & _). lia.
    + eapply avail_le; [|exact AV]. lia.
    + pose proof (boxes_len _ H1). unfold lenN in *. lia.
Qed.
Lemma parse_quiet_at : forall data o l fuel r x rest tr il, mo_props o = true -> within data r (encs l ++ x) rest -> boxes_ok l -> Forall quiet_trak l ->
  (mo_tags o = false \/ none_named ($"udta") l) -> lenN (encs l) <= N.of_nat fuel ->
  exists fuel', moov_parse fuel data o r tr il = moov_parse fuel' data o (adv (lenN (encs l)) r) (tr ++ mdias (r_pos r) l) il /\ N.of_nat fuel <= N.of_nat fuel' + lenN (encs l).
Proof.
  intros data o. induction l as [|b l IH]; intros fuel r x rest tr il HP HW HO HQ HN HF.
  - exists fuel. change (lenN (encs [])) with 0. rewrite adv_0. cbn [mdias]. rewrite app_nil_r. split; [reflexivity|lia].
  - inversion HO; subst. inversion HQ; subst. rewrite encs_cons, <- app_assoc in HW. rewrite encs_cons, lenN_app in *.
    pose proof (box_ok_hd _ H1) as HD. pose proof HD as (_ & _ & L1 & L2 & _).
    assert (HN' : mo_tags o = false \/ none_named ($"udta") l) by (destruct HN as [HN|HN]; [auto|inversion HN; auto]).
    assert (HB : mo_tags o = false \/ box_name b <> $"udta") by (destruct HN as [HN|HN]; [auto|inversion HN; auto]).
    destruct (within_skip _ _ _ _ _ HW HD) as [E HW'].
    assert (ST : exists fuel', moov_parse fuel data o r tr il = moov_parse fuel' data o (adv (lenN (enc b)) r) (tr ++ mdia_of (r_pos r) b) il /\ N.of_nat fuel <= N.of_nat fuel' + lenN (enc b)).
    { destruct (list_eqb (box_name b) ($"trak")) eqn:T.
      + apply list_eqb_eq in T. eapply parse_trak_at; eauto. lia.
      + assert (T' : box_name b <> $"trak") by (intros X; rewrite X, list_eqb_refl in T; discriminate).
        exists (fuel - 1)%nat. split; [|lia]. destruct fuel; [lia|]. cbn [moov_parse]. rewrite (within_next _ _ _ _ _ _ HW HD). cbn [a_ident a_ext a_len].
        rewrite (is_fourcc_neq ($"trak")) by auto. cbn [andb].
        replace (is_fourcc ($"udta") (Fourcc (box_name b)) && mo_tags o) with false by (destruct HB as [->|HB]; [now rewrite Bool.andb_false_r|now rewrite is_fourcc_neq]).
        rewrite E. cbn [bind]. rewrite (mdia_of_other _ _ T'), app_nil_r. f_equal. lia. }
    destruct ST as (f1 & -> & F1).
    destruct (IH f1 (adv (lenN (enc b)) r) x rest (tr ++ mdia_of (r_pos r) b) il HP HW' H2 H4 HN') as (f2 & -> & F2); [lia|].
    exists f2. rewrite adv_adv, adv_pos. cbn [mdias]. rewrite app_assoc. split; [reflexivity|lia].
Qed.
(** What is read later only adds tracks *)
Lemma parse_prefix : forall data o fuel r tr il tr' il', moov_parse fuel data o r tr il = Ok (tr', il') -> exists t, tr' = tr ++ t.
Proof.
  intros data o. induction fuel as [|fuel IH]; intros r tr il tr' il' H; [discriminate|]. cbn [moov_parse] in H.
  destruct (next data (mo_mode o) r) as [[[i|] r1]|e|]; [| injection H as -> ->; exists []; now rewrite app_nil_r | injection H as -> ->; exists []; now rewrite app_nil_r |discriminate].
  destruct (is_fourcc ($"trak") (a_ident i) && mo_props o).
  - destruct (find_child _ _ _ _ _ _) as [[[x|] r2]|e|]; cbn [bind] in H; try discriminate; [|eapply IH; eauto].
    destruct (skip_atom _ _ _) as [r3|e|]; cbn [bind] in H; try discriminate. apply IH in H. destruct H as [t ->]. exists (x :: t). now rewrite <- app_assoc.
  - destruct (is_fourcc ($"udta") (a_ident i) && mo_tags o).
    + destruct (ilst_from_udta _ _ _ _) as [[t r2]|e|]; cbn [bind] in H; try discriminate. eapply IH; eauto.
    + destruct (skip_atom _ _ _) as [r3|e|]; cbn [bind] in H; try discriminate. eapply IH; eauto.
Qed.

(** ** The media of a track *)
Definition seen_kid (p : N) (b : box) (t : track) : track :=
  if list_eqb (box_name b) ($"mdhd") then mkTk (t_audio t) (Some (mkAi p (lenN (enc b)) false (Fourcc ($"mdhd")))) (t_minf t)
  else mkTk (t_audio t || sounds b) (t_mdhd t) (t_minf t).
Fixpoint seen_kids (p : N) (l : list box) (t : track) : track :=
  match l with [] => t | b :: l => seen_kids (p + lenN (enc b)) l (seen_kid p b t) end.
Lemma seen_audio : forall l p t, (forall b, In b l -> box_name b = $"mdhd" -> sounds b = false) -> t_audio (seen_kids p l t) = t_audio t || existsb sounds l.
Proof.
  induction l as [|b l IH]; intros p t H; cbn; [now rewrite Bool.orb_false_r|]. rewrite IH by (intros; apply H; [now right|auto]). unfold seen_kid.
  destruct (list_eqb (box_name b) ($"mdhd")) eqn:E; cbn; [|now rewrite Bool.orb_assoc].
  apply list_eqb_eq in E. rewrite (H b) by (auto; now left). reflexivity.
Qed.
Lemma sounds_hdlr : forall b, sounds b = true -> box_name b = $"hdlr".
Proof. intros [s id c|s id ks] H; [|discriminate]. cbn in *. apply andb_prop in H. destruct H as [H _]. apply andb_prop in H. destruct H as [H _]. now apply list_eqb_eq. Qed.
Lemma seen_mdhd : forall l p t, none_named ($"mdhd") l -> t_mdhd (seen_kids p l t) = t_mdhd t.
Proof.
  induction l as [|b l IH]; intros p t H; [reflexivity|]. inversion H; subst. cbn. rewrite IH by auto. unfold seen_kid.
  rewrite (proj2 (list_eqb_neq _ _)) by auto. reflexivity.
Qed.
Lemma seen_minf : forall l p t, t_minf (seen_kids p l t) = t_minf t.
Proof. induction l as [|b l IH]; intros p t; [reflexivity|]. cbn. rewrite IH. unfold seen_kid. now destruct (list_eqb _ _). Qed.
Lemma seen_app : forall a b p t, seen_kids p (a ++ b) t = seen_kids (p + lenN (encs a)) b (seen_kids p a t).
Proof.
  induction a as [|x a IH]; intros b p t; [change (lenN (encs [])) with 0; now rewrite N.add_0_r|]. cbn [app seen_kids]. rewrite IH, encs_cons, lenN_app. now rewrite N.add_assoc.
Qed.
Lemma sounds_name : forall b, box_name b <> $"hdlr" -> sounds b = false.
Proof. intros b H. destruct (sounds b) eqn:E; auto. apply sounds_hdlr in E. contradiction. Qed.
Lemma hdlr_leaf : forall b, box_ok b -> box_name b = $"hdlr" -> exists c, b = Leaf (8 + lenN c) ($"hdlr") c /\ lenN (enc b) = 8 + lenN c.
Proof.
  intros [s id c|s id ks] H E; cbn in E; subst id.
  - cbn in H. destruct H as (-> & _). exists c. split; [reflexivity|]. cbn [enc]. apply lenN_hd. reflexivity.
  - apply box_ok_node in H. destruct H as (_ & _ & H & _). cbn in H. exfalso. repeat destruct H as [H|H]; try discriminate; auto.
Qed.
Lemma mdia_kids : forall data m l fuel limit seen p t rest, dropN p data = encs l ++ rest -> boxes_ok l -> none_named ($"minf") l ->
  seen + lenN (encs l) <= limit -> (length l <= fuel)%nat ->
  mdia_loop fuel data m limit seen (at_pos data p) t =
  mdia_loop (fuel - length l) data m limit (seen + lenN (encs l)) (at_pos data (p + lenN (encs l))) (seen_kids p l t).
Proof.
  intros data m. induction l as [|b l IH]; intros fuel limit seen p t rest HD HO HN HL HF.
  - change (lenN (encs [])) with 0. rewrite !N.add_0_r, Nat.sub_0_r. reflexivity.
  - inversion HO as [|? ? HB HO']; subst. inversion HN as [|? ? NB HN']; subst. rewrite encs_cons, <- app_assoc in HD. rewrite encs_cons, lenN_app in *.
    pose proof (box_ok_hd _ HB) as HH. pose proof HH as (_ & _ & L1 & L2 & _). destruct fuel as [|fuel]; [cbn in HF; lia|].
    cbn [mdia_loop]. replace (limit <=? seen) with false by lia. rewrite (at_next data m p b _ HD HH). cbn [bind a_ident a_ext a_len is_fourcc].
    assert (HD' : dropN (p + lenN (enc b)) data = encs l ++ rest) by (eapply drop_more; eauto).
    assert (FIN : forall t', mdia_loop fuel data m limit (seen + lenN (enc b)) (at_pos data (p + lenN (enc b))) t' =
      mdia_loop (fuel - length l) data m limit (seen + (lenN (enc b) + lenN (encs l))) (at_pos data (p + (lenN (enc b) + lenN (encs l)))) (seen_kids (p + lenN (enc b)) l t')).
    { intros t'. rewrite (IH fuel limit _ _ t' rest HD') by (auto; cbn in HF; lia). now rewrite !N.add_assoc. }
    cbn [seen_kids length Nat.sub]. unfold seen_kid. destruct (list_eqb (box_name b) ($"mdhd")) eqn:E1.
    + rewrite (at_skip data p b HH). cbn [bind]. apply list_eqb_eq in E1. rewrite E1. apply FIN.
    + destruct (list_eqb (box_name b) ($"hdlr")) eqn:E2.
      * apply list_eqb_eq in E2. destruct (hdlr_leaf b HB E2) as (c & -> & LE). rewrite LE. cbn [sounds]. rewrite list_eqb_refl. cbn [andb].
        destruct (N.leb_spec 12 (lenN c)) as [LC|LC].
        -- replace (8 + lenN c <? 20) with false by lia. change 8%Z with (Z.of_N 8). rewrite at_seek_cur. cbn [bind].
           assert (HC : dropN (p + 8 + 8) data = takeN 4 (dropN 8 c) ++ dropN 4 (dropN 8 c) ++ encs l ++ rest).
           { rewrite (app_assoc (takeN 4 (dropN 8 c))), takeN_dropN.
             eapply drop_more with (a := takeN 8 c); [|unfold lenN, takeN in *; rewrite firstn_length; lia].
             eapply drop_more with (a := be_enc 4 (8 + lenN c) ++ $"hdlr"); [|rewrite lenN_app, be4_len; reflexivity].
             rewrite HD. cbn [enc]. rewrite <- !app_assoc. now rewrite (app_assoc (takeN 8 c)), takeN_dropN. }
           rewrite (at_exact data _ _ _ 4 HC) by (unfold lenN, takeN, dropN in *; rewrite firstn_length, skipn_length; lia). cbn [bind].
           rewrite skip_box, at_adv by lia. cbn [bind]. rewrite LE in FIN.
           replace (p + 8 + 8 + 4 + (8 + lenN c - 12 - 8)) with (p + (8 + lenN c)) by lia. apply FIN.
        -- replace (8 + lenN c <? 20) with true by lia. rewrite <- LE, (at_skip data p _ HH). cbn [bind]. rewrite Bool.orb_false_r. destruct t. apply FIN.
      * assert (NH : box_name b <> $"hdlr") by (intros X; rewrite X, list_eqb_refl in E2; discriminate).
        rewrite (proj2 (list_eqb_neq (box_name b) ($"minf"))) by auto. rewrite (at_skip data p b HH). cbn [bind]. rewrite (sounds_name b NH), Bool.orb_false_r.
        destruct t. apply FIN.
Qed.
