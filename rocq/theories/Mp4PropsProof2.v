From Verif Require Import Base BaseLemmas Str StrLemmas Mode PictureModel FileModel MathModel Mp4Model Mp4WriteModel Mp4Spec Mp4Proof Mp4Proof3 Mp4Proof4 Mp4Proof5 Mp4Proof6 Mp4Proof7 Mp4Proof8 Mp4PropsModel Mp4PropsSpec Mp4PropsProof.

Lemma node_len : forall s id ks, box_ok (Node s id ks) -> lenN (enc (Node s id ks)) = 8 + lenN (encs ks) /\ lenN id = 4 /\ boxes_ok ks.
Proof.
  intros s id ks H. apply box_ok_node in H. destruct H as (_ & _ & I & K). apply container_id in I. destruct I as [[I _] _].
  split; [|auto]. cbn [enc]. now apply lenN_hd.
Qed.
Lemma drop_kids : forall data p s id ks rest, dropN p data = enc (Node s id ks) ++ rest -> lenN id = 4 -> dropN (p + 8) data = encs ks ++ rest.
Proof.
  intros data p s id ks rest H L. eapply drop_more with (a := be_enc 4 s ++ id); [|rewrite lenN_app, be4_len; lia]. rewrite H. cbn [enc]. fold (encs ks). now rewrite <- !app_assoc.
Qed.
Lemma drop_leaf : forall data p s id c rest, dropN p data = enc (Leaf s id c) ++ rest -> lenN id = 4 -> dropN (p + 8) data = c ++ rest.
Proof.
  intros data p s id c rest H L. eapply drop_more with (a := be_enc 4 s ++ id); [|rewrite lenN_app, be4_len; lia]. rewrite H. cbn [enc]. now rewrite <- !app_assoc.
Qed.
Lemma kids_fuel : forall data p ks rest, dropN p data = encs ks ++ rest -> boxes_ok ks -> (length ks < S (length data))%nat.
Proof. intros data p ks rest H HO. apply at_len in H. rewrite lenN_app in H. pose proof (boxes_len _ (Forall_hd _ HO)). unfold lenN in *. lia. Qed.
(** [minf] is the last *)
Lemma mdia_last : forall data m fuel limit seen p t b rest, dropN p data = enc b ++ rest -> hd_ok b -> box_name b = $"minf" -> limit = seen + lenN (enc b) -> (0 < fuel)%nat ->
  mdia_loop fuel data m limit seen (at_pos data p) t = Ok (mkTk (t_audio t) (t_mdhd t) (Some (mkAi p (lenN (enc b)) false (Fourcc ($"minf")))), at_pos data (p + 8)).
Proof.
  intros data m fuel limit seen p t b rest HD HB HN HL HF. pose proof HB as (_ & _ & L1 & L2 & _). destruct fuel as [|fuel]; [lia|]. cbn [mdia_loop].
  replace (limit <=? seen) with false by lia. rewrite (at_next data m p b rest HD HB). cbn [bind a_ident a_len]. rewrite HN. cbn [is_fourcc].
  change (list_eqb ($"minf") ($"mdhd")) with false. change (list_eqb ($"minf") ($"hdlr")) with false. rewrite list_eqb_refl. cbn iota.
  destruct fuel; cbn [mdia_loop]; replace (limit <=? seen + lenN (enc b)) with true by lia; reflexivity.
Qed.
Lemma sounds_kids : forall l, boxes_ok l -> forall b, In b l -> box_name b = $"mdhd" -> sounds b = false.
Proof. intros l _ b _ E. apply sounds_name. rewrite E. discriminate. Qed.
Lemma mdia_silent : forall data m p s mk rest, dropN p data = enc (Node s ($"mdia") mk) ++ rest -> box_ok (Node s ($"mdia") mk) -> silent mk ->
  exists t q, mdia_loop (S (length data)) data m (lenN (enc (Node s ($"mdia") mk))) 8 (at_pos data (p + 8)) (mkTk false None None) = Ok (t, at_pos data q) /\ t_audio t = false.
Proof.
  intros data m p s mk rest HD HO (a & x & -> & HA & HS & HX). destruct (node_len _ _ _ HO) as (LE & LI & HK).
  apply drop_kids in HD; [|exact LI]. rewrite LE. pose proof (kids_fuel _ _ _ _ HD HK) as HF. apply Forall_app in HK. destruct HK as [HK HK2].
  rewrite encs_app, <- app_assoc in HD. rewrite encs_app, lenN_app. rewrite app_length in HF.
  rewrite (mdia_kids data m a (S (length data)) _ 8 (p + 8) (mkTk false None None) _ HD HK HA) by lia.
  assert (AU : t_audio (seen_kids (p + 8) a (mkTk false None None)) = false) by (rewrite seen_audio by (now apply sounds_kids); cbn; exact HS).
  destruct HX as [->|(i & -> & NI)].
  - change (lenN (encs [])) with 0. destruct (S (length data) - length a)%nat; cbn [mdia_loop]; replace (_ <=? _) with true by lia; eauto.
  - inversion HK2; subst. apply drop_more with (n := lenN (encs a)) in HD; [|reflexivity]. rewrite encs_one in *.
    rewrite (mdia_last data m _ _ _ _ _ i rest HD (box_ok_hd _ H1) NI); [|lia|cbn in HF; lia]. eexists _, _. split; [reflexivity|]. exact AU.
Qed.
Lemma traks_audio : forall data m tr r t, t_audio t = true -> traks_loop data m tr r t = Ok (t, r).
Proof. intros data m [|x tr] r t H; [reflexivity|]. cbn. now rewrite H. Qed.
Lemma traks_silent : forall data m k1 pos q tr t rest, dropN pos data = encs k1 ++ rest -> boxes_ok k1 -> Forall quiet_trak k1 -> Forall silent_trak k1 -> t_audio t = false ->
  exists q' t', t_audio t' = false /\ traks_loop data m (mdias pos k1 ++ tr) (at_pos data q) t = traks_loop data m tr (at_pos data q') t'.
Proof.
  intros data m. induction k1 as [|b k1 IH]; intros pos q tr t rest HD HO HQ HS HT; [eexists q, t; auto|].
  inversion HO as [|? ? HB HO']; subst. inversion HQ as [|? ? QB HQ']; subst. inversion HS as [|? ? SB HS']; subst. rewrite encs_cons, <- app_assoc in HD.
  pose proof (drop_more _ _ _ _ _ HD eq_refl) as HD'. cbn [mdias]. rewrite <- app_assoc.
  assert (ST : exists q' t', t_audio t' = false /\ traks_loop data m (mdia_of pos b ++ mdias (pos + lenN (enc b)) k1 ++ tr) (at_pos data q) t = traks_loop data m (mdias (pos + lenN (enc b)) k1 ++ tr) (at_pos data q') t').
  { destruct (list_eqb (box_name b) ($"trak")) eqn:T.
    - apply list_eqb_eq in T. destruct (QB T) as (s & ks & -> & HK). destruct (node_len _ _ _ HB) as (LE & LI & BK). unfold mdia_of. rewrite list_eqb_refl.
      destruct HK as [HK|(t1 & y & t2 & -> & N1 & NY & T1 & T2)].
      + rewrite <- (app_nil_r ks), mdia_in_app by auto. eexists q, t. auto.
      + rewrite mdia_in_app by auto. cbn [mdia_in]. rewrite NY, list_eqb_refl. cbn [app].
        apply Forall_app in BK. destruct BK as [B1 B2]. inversion B2 as [|? ? BY B3]; subst.
        destruct y as [ys yid yc|ys yid mk]; cbn [box_name] in NY; subst yid.
        { cbn in BY. exfalso. apply (proj2 (proj2 (proj2 (proj2 BY)))). unfold CONTAINERS. cbn. tauto. }
        pose proof (drop_kids _ _ _ _ _ _ HD LI) as HK. rewrite encs_app, encs_cons, <- !app_assoc in HK.
        pose proof (drop_more _ _ _ _ _ HK eq_refl) as HY. pose proof (at_le _ _ _ _ HY) as LY. destruct (node_len _ _ _ BY) as (LEY & _).
        destruct (mdia_silent data m _ _ _ _ HY BY (SB _ _ _ _ _ eq_refl N1)) as (t' & q' & E & A).
        exists q', t'. split; [exact A|]. cbn [traks_loop a_len a_start]. rewrite HT, at_seek by lia. rewrite E. reflexivity.
    - rewrite mdia_of_other by (intros X; rewrite X, list_eqb_refl in T; discriminate). eexists q, t. auto. }
  destruct ST as (q1 & t1 & A1 & ->). eapply IH; eauto.
Qed.

(** ** The media header *)
Lemma mdhd_read : forall data p h rest, dropN p data = media_bytes h ++ rest -> media_ok h ->
  exists q, mdhd_parse data (at_pos data p) = Ok (h_scale h, h_duration h, at_pos data q).
Proof.
  intros data p h rest HD (HF & HC & HM & HS & HDu). unfold media_bytes in HD. rewrite <- !app_assoc in HD. unfold mdhd_parse.
  assert (W : wide h = 8%nat \/ wide h = 4%nat) by (unfold wide; destruct (h_wide h); auto).
  assert (WW : (if be_dec [if h_wide h then 1 else 0] =? 1 then 8 else 4) = N.of_nat (wide h)) by (unfold wide; destruct (h_wide h); reflexivity).
  rewrite (at_own_raw data _ _ _ 1 HD) by reflexivity. cbn [bind]. rewrite WW. apply drop_more with (n := 1) in HD; [|reflexivity].
  rewrite (at_own_raw data _ _ _ 3 HD) by exact HF. cbn [bind]. apply drop_more with (n := 3) in HD; [|exact HF].
  rewrite (at_own data _ _ _ _ (N.of_nat (wide h)) HD) by auto. cbn [bind]. apply drop_more with (n := N.of_nat (wide h)) in HD; [|apply be_enc_len].
  rewrite (at_own data _ _ _ _ (N.of_nat (wide h)) HD) by auto. cbn [bind]. apply drop_more with (n := N.of_nat (wide h)) in HD; [|apply be_enc_len].
  rewrite (at_own data _ _ _ _ 4 HD) by auto. cbn [bind]. apply drop_more with (n := 4) in HD; [|apply be_enc_len].
  rewrite (at_own data _ _ _ _ (N.of_nat (wide h)) HD) by auto. cbn [bind]. eauto.
Qed.

(** ** The sample table *)
Lemma stts_read : forall l data p rest fuel, dropN p data = flat_map (fun e => be_enc 4 (fst e) ++ be_enc 4 (snd e)) l ++ rest ->
  Forall (fun e => fst e < 2 ^ 32 /\ snd e < 2 ^ 32) l -> (length l <= fuel)%nat ->
  stts_entries fuel data (lenN l) (at_pos data p) = Ok (map snd l, at_pos data (p + 8 * lenN l)).
Proof.
  induction l as [|[n d] l IH]; intros data p rest fuel HD HO HF.
  - change (lenN (@nil (N * N))) with 0. rewrite N.mul_0_r, N.add_0_r. now destruct fuel.
  - destruct fuel as [|fuel]; [cbn in HF; lia|]. inversion HO as [|? ? [HN HDu] HO']; subst. cbn [fst snd] in *. cbn [stts_entries]. rewrite lenN_cons.
    replace (1 + lenN l =? 0) with false by lia. cbn [flat_map fst snd] in HD. rewrite <- !app_assoc in HD.
    rewrite (at_be data _ _ _ _ 4 HD) by auto. cbn [bind]. apply drop_more with (n := 4) in HD; [|apply be_enc_len].
    rewrite (at_be data _ _ _ _ 4 HD) by auto. cbn [bind]. apply drop_more with (n := 4) in HD; [|apply be_enc_len].
    replace (1 + lenN l - 1) with (lenN l) by lia. rewrite (IH data _ rest fuel HD HO') by (cbn in HF; lia). cbn [bind map snd]. do 3 f_equal. lia.
Qed.
Lemma stts_len : forall l, lenN (flat_map (fun e => be_enc 4 (fst e) ++ be_enc 4 (snd e)) l) = 8 * lenN l.
Proof. induction l as [|x l IH]; [reflexivity|]. cbn [flat_map]. rewrite !lenN_app, !be4_len, lenN_cons, IH. lia. Qed.
Lemma stts_all : forall l data p rest, dropN p data = stts_bytes l ++ rest -> stts_ok l ->
  stts_parse data (at_pos data p) = Ok (map snd l, at_pos data (p + lenN (stts_bytes l))).
Proof.
  intros l data p rest HD [HL HO]. pose proof (at_len _ _ _ HD) as LD. unfold stts_bytes in *. rewrite <- !app_assoc in HD. rewrite !lenN_app, stts_len, be4_len in *. unfold stts_parse.
  rewrite (at_be_raw data _ _ _ 4 HD) by reflexivity. cbn [bind]. apply drop_more with (n := 4) in HD; [|reflexivity].
  rewrite (at_be data _ _ _ _ 4 HD) by auto. cbn [bind]. apply drop_more with (n := 4) in HD; [|apply be_enc_len].
  rewrite (stts_read l data _ rest _ HD HO) by (unfold lenN in *; lia). change (lenN [0; 0; 0; 0]) with 4. do 3 f_equal. lia.
Qed.
Lemma stbl_skip : forall data m l fuel limit seen p rest a b, dropN p data = encs l ++ rest -> boxes_ok l -> none_named ($"stsd") l -> none_named ($"stts") l ->
  seen + lenN (encs l) <= limit -> (length l <= fuel)%nat ->
  stbl_loop fuel data m limit seen (at_pos data p) a b = stbl_loop (fuel - length l) data m limit (seen + lenN (encs l)) (at_pos data (p + lenN (encs l))) a b.
Proof.
  intros data m. induction l as [|x l IH]; intros fuel limit seen p rest a b HD HO HN1 HN2 HL HF.
  - change (lenN (encs [])) with 0. rewrite !N.add_0_r, Nat.sub_0_r. reflexivity.
  - inversion HO as [|? ? HB HO']; subst. inversion HN1; subst. inversion HN2; subst. rewrite encs_cons, <- app_assoc in HD. rewrite encs_cons, lenN_app in *.
    pose proof (box_ok_hd _ HB) as HH. pose proof HH as (_ & _ & L1 & L2 & _). destruct fuel as [|fuel]; [cbn in HF; lia|].
    cbn [stbl_loop]. replace (limit <=? seen) with false by lia. rewrite (at_next data m p x _ HD HH). cbn [bind a_ident a_ext a_len].
    rewrite !(proj2 (list_eqb_neq _ _)) by auto. rewrite (at_skip data p x HH). cbn [bind].
    rewrite (IH fuel limit _ _ rest) ; auto; try lia; [|eapply drop_more; eauto|cbn in HF; lia]. cbn [length Nat.sub]. now rewrite !N.add_assoc.
Qed.
Lemma leaf_len : forall id c, lenN id = 4 -> lenN (enc (leaf id c)) = 8 + lenN c.
Proof. intros. unfold leaf. cbn [enc]. now apply lenN_hd. Qed.
Lemma stbl_read : forall data m p s1 c s2 l s3 rest, let ks := s1 ++ [leaf ($"stsd") c] ++ s2 ++ [leaf ($"stts") (stts_bytes l)] ++ s3 in
  dropN p data = encs ks ++ rest -> boxes_ok ks -> none_named ($"stsd") (s1 ++ s2 ++ s3) -> none_named ($"stts") (s1 ++ s2 ++ s3) -> stts_ok l ->
  exists q, stbl_loop (S (length data)) data m (8 + lenN (encs ks)) 8 (at_pos data p) None None = Ok (Some c, Some (map snd l), at_pos data q).
Proof.
  intros data m p s1 c s2 l s3 rest ks HD HO N1 N2 HS. pose proof (kids_fuel _ _ _ _ HD HO) as HF. unfold ks in *. clear ks.
  unfold none_named in N1, N2. rewrite !Forall_app in N1, N2. destruct N1 as (N11 & N12 & N13), N2 as (N21 & N22 & N23).
  unfold boxes_ok in HO. rewrite !Forall_app in HO. destruct HO as (O1 & OS & O2 & OT & O3). apply Forall_inv in OS, OT. pose proof (box_ok_hd _ OS) as HHS. pose proof (box_ok_hd _ OT) as HHT.
  rewrite !encs_app, !encs_one, <- !app_assoc in HD. rewrite !encs_app, !encs_one, !lenN_app. rewrite !app_length in HF. cbn [length] in HF.
  rewrite (stbl_skip data m s1 _ _ 8 p _ None None HD) by (auto; lia). apply drop_more with (n := lenN (encs s1)) in HD; [|reflexivity].
  remember (S (length data) - length s1)%nat as f1. destruct f1 as [|f1]; [lia|]. cbn [stbl_loop]. rewrite !leaf_len by reflexivity. replace (_ <=? _) with false by lia.
  rewrite (at_next data m _ _ _ HD HHS). cbn [bind a_ident a_ext a_len]. rewrite leaf_len by reflexivity. change (box_name (leaf ($"stsd") c)) with ($"stsd"). rewrite list_eqb_refl.
  pose proof (drop_leaf _ _ _ _ _ _ HD eq_refl) as HC. replace (8 + lenN c - 8) with (lenN c) by lia. rewrite (at_exact data _ c _ _ HC) by reflexivity. cbn [bind].
  apply drop_more with (n := lenN c) in HC; [|reflexivity].
  rewrite (stbl_skip data m s2 _ _ _ _ _ _ _ HC) by (auto; lia). apply drop_more with (n := lenN (encs s2)) in HC; [|reflexivity].
  remember (f1 - length s2)%nat as f2. destruct f2 as [|f2]; [lia|]. cbn [stbl_loop]. replace (_ <=? _) with false by lia.
  rewrite (at_next data m _ _ _ HC HHT). cbn [bind a_ident a_ext a_len]. rewrite leaf_len by reflexivity. change (box_name (leaf ($"stts") (stts_bytes l))) with ($"stts").
  change (list_eqb ($"stts") ($"stsd")) with false. rewrite list_eqb_refl. cbn iota.
  pose proof (drop_leaf _ _ _ _ _ _ HC eq_refl) as HT. rewrite (stts_all l data _ _ HT HS). cbn [bind]. apply drop_more with (n := lenN (stts_bytes l)) in HT; [|reflexivity].
  rewrite (stbl_skip data m s3 _ _ _ _ _ _ _ HT) by (auto; lia).
  destruct (f2 - length s3)%nat; cbn [stbl_loop]; replace (_ <=? _) with true by lia; eauto.
Qed.
Lemma minf_read : forall data m p s i1 ss ks i2 rest c l s1 s2 s3, ks = s1 ++ [leaf ($"stsd") c] ++ s2 ++ [leaf ($"stts") (stts_bytes l)] ++ s3 ->
  let b := Node s ($"minf") (i1 ++ [Node ss ($"stbl") ks] ++ i2) in
  dropN p data = enc b ++ rest -> box_ok b -> none_named ($"stbl") i1 ->
  none_named ($"stsd") (s1 ++ s2 ++ s3) -> none_named ($"stts") (s1 ++ s2 ++ s3) -> stts_ok l ->
  exists q, minf_parse data m (lenN (enc b)) (at_pos data (p + 8)) = Ok (Some (c, Some (map snd l)), at_pos data q).
Proof.
  intros data m p s i1 ss ks i2 rest c l s1 s2 s3 EK b HD HO NI N1 N2 HS. destruct (node_len _ _ _ HO) as (LE & LI & HK). apply drop_kids in HD; [|exact LI].
  pose proof (kids_fuel _ _ _ _ HD HK) as HF. rewrite app_length in HF. cbn [length] in HF.
  apply Forall_app in HK. destruct HK as [H1 H2]. apply Forall_cons_iff in H2. destruct H2 as [HB H3]. subst ks. destruct (node_len _ _ _ HB) as (LB & _ & KB).
  assert (HD' := HD). rewrite !encs_app, encs_one, <- !app_assoc in HD'.
  unfold minf_parse. unfold b. rewrite LE, !encs_app, encs_one, !lenN_app.
  set (stbl := Node ss ($"stbl") _) in *.
  rewrite (find_child_found data m ($"stbl") i1 stbl (lenN (encs i2) + 8)) with (rest := encs i2 ++ rest); auto; try lia.
  - cbn [bind a_len]. rewrite at_adv. apply drop_more with (n := lenN (encs i1)) in HD'; [|reflexivity]. apply drop_kids in HD'; [|reflexivity].
    rewrite N.add_assoc. destruct (stbl_read data m _ s1 c s2 l s3 _ HD' KB N1 N2 HS) as (q & E). rewrite LB, E. cbn [bind]. eauto.
  - now apply Forall_hd.
  - now apply box_ok_hd.
  - eapply Forall_impl; [|apply Forall_hd; exact H1]. intros z (_ & _ & _ & Z & _). lia.
  - apply at_within in HD. eapply within_avail with (a := encs i1 ++ takeN 8 (enc stbl)) (b := dropN 8 (enc stbl) ++ encs i2 ++ rest); [|rewrite lenN_app; unfold lenN, takeN in *; rewrite firstn_length; lia].
    rewrite <- app_assoc, (app_assoc (takeN 8 _)), takeN_dropN. rewrite !encs_app, encs_one, <- !app_assoc in HD. exact HD.
Qed.

(** ** The media data *)
Lemma mdat_find : forall data m l fuel p, dropN p data = encs l -> boxes_ok l -> (length l < fuel)%nat ->
  mdat_loop fuel data m (at_pos data p) = match mdat_size l with Some n => Ok n | None => Err (MMessage 17) end.
Proof.
  intros data m. induction l as [|b l IH]; intros fuel p HD HO HF; (destruct fuel as [|fuel]; [inversion HF|]); cbn [mdat_loop].
  - rewrite at_end by exact HD. reflexivity.
  - inversion HO as [|? ? HB HO']; subst. rewrite encs_cons in HD. pose proof (box_ok_hd _ HB) as HH. rewrite (at_next data m p b _ HD HH). cbn [a_ident a_ext a_len is_fourcc].
    apply drop_more with (n := lenN (enc b)) in HD; [|reflexivity].
    destruct (list_eqb (box_name b) ($"mdat")) eqn:E.
    + destruct b as [s id c|s id ks]; cbn [box_name] in E; apply list_eqb_eq in E; subst id; cbn [mdat_size].
      * rewrite list_eqb_refl. cbn in HB. destruct HB as (-> & _). f_equal. cbn [enc]. rewrite lenN_hd by reflexivity. lia.
      * apply box_ok_node in HB. destruct HB as (_ & _ & H & _). cbn in H. exfalso. repeat destruct H as [H|H]; try discriminate; auto.
    + rewrite (at_skip data p b HH). cbn [bind]. rewrite (IH fuel _ HD HO') by (cbn in HF; lia).
      destruct b as [s id c|s id ks]; cbn [mdat_size]; cbn [box_name] in E; [now rewrite E|reflexivity].
Qed.
Lemma mdat_read : forall m top, boxes_ok top -> mdat_length (encs top) m = match mdat_size top with Some n => Ok n | None => Err (MMessage 17) end.
Proof.
  intros m top HO. unfold mdat_length. rewrite at_start. apply mdat_find; auto. apply (kids_fuel (encs top) 0 top []); auto. now rewrite app_nil_r.
Qed.
