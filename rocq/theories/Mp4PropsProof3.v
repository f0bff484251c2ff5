From Verif Require Import Base BaseLemmas Str StrLemmas Mode PictureModel FileModel MathModel Mp4Model Mp4WriteModel Mp4Spec Mp4Proof Mp4Proof3 Mp4Proof4 Mp4Proof5 Mp4Proof6 Mp4Proof7 Mp4Proof8 Mp4PropsModel Mp4PropsSpec Mp4PropsProof Mp4PropsProof2.

Lemma moov_at_pos : forall top pre S ks post m, boxes_ok top -> ftyp_first top -> top = pre ++ Node S ($"moov") ks :: post -> none_named ($"moov") pre ->
  exists s r', verify_mp4 (encs top) m (atom_reader (encs top)) = Ok (s, r') /\
  exists r2, moov_find (Datatypes.S (length (encs top))) (encs top) m r' = Ok (mkAi (lenN (encs pre)) (lenN (enc (Node S ($"moov") ks))) false (Fourcc ($"moov")), r2) /\
    r_pos r2 = lenN (encs pre) + 8.
Proof.
  intros top pre S ks post m HO HF ET HN. destruct (verify_ok top m HO HF) as (b & l & s & EB & V).
  exists s, (adv (lenN (enc b)) (atom_reader (encs top))). split; [exact V|].
  pose proof (Forall_hd _ HO) as HH. destruct pre as [|b' pre].
  - exfalso. rewrite ET in HF. exact HF.
  - rewrite EB in ET. injection ET as <- EL. apply Forall_cons_iff in HN. destruct HN as [N1 N2]. pose proof HH as HH'. rewrite EB, EL in HH'. apply Forall_cons_iff in HH'. destruct HH' as [HB HP].
    apply Forall_app in HP. destruct HP as [HP HP2]. apply Forall_cons_iff in HP2. destruct HP2 as [HM _].
    assert (W0 : within (encs top) (adv (lenN (enc b)) (atom_reader (encs top))) (encs pre ++ enc (Node S ($"moov") ks) ++ encs post) []).
    { eapply within_adv with (a := enc b); [|reflexivity]. split; [|eexists; split; [reflexivity|cbn [b_rem]; f_equal]].
      - unfold sees. cbn [atom_reader r_pos]. rewrite app_nil_r, EB, EL, encs_cons, encs_app, encs_cons. reflexivity.
      - rewrite EB, EL, encs_cons, encs_app, encs_cons. reflexivity. }
    pose proof (boxes_len _ HP) as LP. pose proof (within_len _ _ _ _ W0) as LD. rewrite !lenN_app in LD.
    destruct (moov_find_ok (encs top) m pre _ _ _ (Datatypes.S (length (encs top))) W0 HP HM N2 eq_refl) as (r2 & E & P); [unfold lenN in *; lia|].
    rewrite adv_pos in *. cbn [atom_reader r_pos] in *. exists r2. rewrite encs_cons, lenN_app. split; [exact E|]. rewrite P. lia.
Qed.
(** The track with audio *)
Lemma parse_audio : forall data o s t1 ms mk t2 fuel r x rest tr il tr' il', mo_props o = true -> let b := Node s ($"trak") (t1 ++ Node ms ($"mdia") mk :: t2) in
  within data r (enc b ++ x) rest -> box_ok b -> none_named ($"mdia") t1 ->
  moov_parse fuel data o r tr il = Ok (tr', il') ->
  exists t, tr' = tr ++ mkAi (r_pos r + 8 + lenN (encs t1)) (lenN (enc (Node ms ($"mdia") mk))) false (Fourcc ($"mdia")) :: t.
Proof.
  intros data o s t1 ms mk t2 fuel r x rest tr il tr' il' HP b HW HO HN H. pose proof (box_ok_hd _ HO) as HD. destruct (node_len _ _ _ HO) as (LE & LI & HK).
  fold b in LE. pose proof (Forall_hd _ HK) as HH. destruct fuel as [|fuel]; [discriminate|]. cbn [moov_parse] in H. rewrite (within_next _ _ _ _ _ _ HW HD) in H. cbn [a_ident a_len] in H.
  change (box_name b) with ($"trak") in H. rewrite is_fourcc_refl, HP in H. cbn [andb] in H. rewrite LE in H.
  assert (HW8 : within data (adv 8 r) (encs (t1 ++ Node ms ($"mdia") mk :: t2) ++ x) rest).
  { eapply within_adv with (a := be_enc 4 s ++ $"trak"); [|rewrite lenN_app, be4_len; reflexivity]. unfold b in HW.
    cbn [enc] in HW. fold (encs (t1 ++ Node ms ($"mdia") mk :: t2)) in HW. now rewrite <- !app_assoc in *. }
  pose proof (within_len _ _ _ _ HW8) as LD. rewrite lenN_app in LD. pose proof (boxes_len _ HH) as LK.
  assert (AV : avail (lenN (encs (t1 ++ Node ms ($"mdia") mk :: t2))) (adv 8 r)) by (eapply within_avail; eauto).
  pose proof HW8 as [SE _]. apply Forall_app in HH. destruct HH as [H1 H2]. apply Forall_cons_iff in H2. destruct H2 as [HY H3]. set (y := Node ms ($"mdia") mk) in *.
  rewrite encs_app, encs_cons in *. rewrite !lenN_app in *. rewrite <- !app_assoc in SE. pose proof HY as (_ & _ & Y1 & Y2 & _).
  rewrite (find_child_found data (mo_mode o) ($"mdia") t1 y (lenN (encs t2) + 8)) with (rest := encs t2 ++ x ++ rest) in H; auto; try lia.
  - cbn [bind] in H. destruct (skip_atom _ _ _) as [r3|e|]; cbn [bind] in H; try discriminate. apply parse_prefix in H. destruct H as [t ->].
    exists t. rewrite adv_pos, <- app_assoc. reflexivity.
  - eapply Forall_impl; [|exact H1]. intros z (_ & _ & _ & Z & _). lia.
  - eapply avail_le; [|exact AV]. lia.
  - pose proof (boxes_len _ H1). unfold lenN in *. lia.
Qed.
(** Everything up to the sample description *)
Definition rest_of (o : mopts) (f : afile) (p : mp4_props) : res mp4_error mp4_props :=
  let? p := read_stsd (f_stsd f) (mo_mode o) p in
  if h_duration (f_media f) =? 0 then Ok p else
  match mdat_size (f_top f) with
  | None => if is_strict (mo_mode o) then Err (MMessage 17) else Ok p
  | Some n => bit_rates (lenN (encs (f_top f))) n (h_scale (f_media f)) (h_duration (f_media f)) (Some (map snd (f_stts f))) p
  end.
Definition timed (h : media) : res mp4_error mp4_props :=
  if 0 <? h_scale h then
    if U64_MAX <? h_duration h * 1000 then Panic else
    match div_round U64_MAX (h_duration h * 1000) (h_scale h) with Ok d => Ok (set_duration d props_default) | _ => Panic end
  else Ok props_default.
Lemma node_eq : forall id ks, node id ks = Node (8 + lenN (encs ks)) id ks. Proof. reflexivity. Qed.
Lemma props_upto : forall o f brand tr il, afile_ok o f -> mo_props o = true -> mp4_read (encs (f_top f)) o = Ok (brand, tr, il) ->
  mp4_properties (encs (f_top f)) (mo_mode o) tr = let? p := timed (f_media f) in rest_of o f p.
Proof.
  intros o f brand tr il (HO & HF & N1 & NU & HQ & HS & N2 & N3 & HSO & N4 & HM & N5 & N6 & N7 & HST) HP HR.
  set (ks := f_k1 f ++ [f_trak f] ++ f_k2 f). assert (ET : f_top f = f_pre f ++ Node (8 + lenN (encs ks)) ($"moov") ks :: f_post f) by reflexivity.
  destruct (moov_at_pos (f_top f) _ _ _ _ (mo_mode o) HO HF ET N1) as (s & r1 & V & r2 & MF & P2).
  unfold mp4_read in HR. rewrite V in HR. cbn [bind] in HR. rewrite MF in HR. cbn [bind a_start a_len] in HR.
  assert (BM : box_ok (Node (8 + lenN (encs ks)) ($"moov") ks)).
  { rewrite ET in HO. apply Forall_app in HO. destruct HO as [_ HO]. now inversion HO. }
  destruct (node_len _ _ _ BM) as (LM & _ & BK). rewrite LM in HR. replace (8 + lenN (encs ks) - 8) with (lenN (encs ks)) in HR by lia.
  set (data := encs (f_top f)) in *. set (pos := lenN (encs (f_pre f)) + 8) in *.
  assert (HD : dropN pos data = encs ks ++ encs (f_post f)).
  { apply drop_kids with (s := 8 + lenN (encs ks)) (id := $"moov"); [|reflexivity]. unfold data. rewrite ET, encs_app, encs_cons. now apply dropN_app. }
  set (r3 := reset_bounds _ _ r2) in HR.
  assert (W : within data r3 (encs ks) (encs (f_post f))).
  { split; [unfold sees; cbn [r3 reset_bounds r_pos]; now rewrite P2|]. eexists. split; reflexivity. }
  assert (W1 := W). unfold ks in W1. rewrite !encs_app, encs_one in W1. assert (R3 : r_pos r3 = pos) by exact P2.
  assert (HD1 := HD). unfold ks in HD1. rewrite !encs_app, encs_one, <- !app_assoc in HD1. pose proof (within_len _ _ _ _ W1) as LD.
  unfold ks in BK. apply Forall_app in BK. destruct BK as [BK1 BK2]. apply Forall_cons_iff in BK2. destruct BK2 as [BT BK3].
  destruct (parse_quiet_at data o (f_k1 f) (S (length data)) r3 _ _ [] None HP W1 BK1 HQ NU) as (fuel & E & FU). { rewrite lenN_app in LD. unfold lenN in *. lia. }
  rewrite E in HR. clear E. rewrite R3 in HR. cbn [app] in HR.
  destruct (moov_parse _ _ _ _ _ _) as [[tr' il']|e|] eqn:MP; cbn [bind] in HR; try discriminate. injection HR as <- <- <-.
  apply within_adv with (n := lenN (encs (f_k1 f))) in W1; [|reflexivity].
  destruct (parse_audio data o _ (f_t1 f) _ (f_handlers f ++ [f_minf f]) (f_t2 f) _ _ _ _ _ _ _ _ HP W1 BT N2 MP) as (t & ->). clear MP W1.
  rewrite adv_pos, R3. apply drop_more with (n := lenN (encs (f_k1 f))) in HD1 as HT; [|reflexivity].
  set (mdia := Node _ ($"mdia") _) in *. assert (ETR : f_trak f = node ($"trak") (f_t1 f ++ mdia :: f_t2 f)) by reflexivity.
  rewrite ETR, node_eq in BT, HT. destruct (node_len _ _ _ BT) as (_ & _ & BTK). apply drop_kids in HT; [|reflexivity]. rewrite encs_app, encs_cons, <- !app_assoc in HT.
  apply drop_more with (n := lenN (encs (f_t1 f))) in HT; [|reflexivity]. set (mp := pos + lenN (encs (f_k1 f)) + 8 + lenN (encs (f_t1 f))) in *.
  apply Forall_app in BTK. destruct BTK as [_ BTK]. apply Forall_cons_iff in BTK. destruct BTK as [BMD _]. destruct (node_len _ _ _ BMD) as (LMD & _ & BMK). fold mdia in LMD.
  pose proof (at_le _ _ _ _ HT) as LT. apply drop_kids in HT; [|reflexivity].
  unfold mp4_properties, find_audio_trak. rewrite at_start.
  destruct (traks_silent data (mo_mode o) (f_k1 f) pos 0 (mkAi mp (lenN (enc mdia)) false (Fourcc ($"mdia")) :: t) (mkTk false None None) _ HD1 BK1 HQ HS eq_refl) as (q & t0 & A0 & E).
  rewrite E. clear E. cbn [traks_loop a_start a_len]. rewrite A0, at_seek by lia.
  pose proof (kids_fuel _ _ _ _ HT BMK) as HFU. apply Forall_app in BMK. destruct BMK as [BH BMI]. apply Forall_inv in BMI.
  rewrite encs_app, encs_one, <- app_assoc in HT. rewrite app_length in HFU. cbn [length] in HFU. rewrite LMD, encs_app, encs_one, lenN_app.
  rewrite (mdia_kids data (mo_mode o) (f_handlers f) _ _ 8 (mp + 8) _ _ HT BH N3) by lia.
  apply drop_more with (n := lenN (encs (f_handlers f))) in HT as HI; [|reflexivity].
  rewrite (mdia_last data (mo_mode o) _ _ _ _ _ (f_minf f) _ HI (box_ok_hd _ BMI) eq_refl) by lia. cbn [bind].
  assert (AU : t_audio (seen_kids (mp + 8) (f_handlers f) (mkTk false None None)) = true) by (rewrite seen_audio by (now apply sounds_kids); cbn; exact HSO).
  rewrite traks_audio by exact AU. cbn [bind t_audio t_mdhd t_minf]. rewrite AU. cbn [negb].
  unfold f_handlers at 1. rewrite !seen_app, seen_mdhd by exact N4. cbn [seen_kids]. unfold seen_kid. change (box_name (leaf ($"mdhd") (media_bytes (f_media f)))) with ($"mdhd").
  rewrite list_eqb_refl. cbn [t_mdhd bind a_start].
  unfold f_handlers in HT. rewrite !encs_app, encs_one, <- !app_assoc in HT. apply drop_more with (n := lenN (encs (f_a1 f))) in HT; [|reflexivity].
  pose proof (at_le _ _ _ _ HT) as LH. rewrite leaf_len in LH by reflexivity.
  apply drop_leaf in HT; [|reflexivity]. rewrite at_seek by lia. destruct (mdhd_read data _ _ _ HT HM) as (q2 & E). rewrite E. clear E. cbn [bind]. fold (timed (f_media f)).
  destruct (timed (f_media f)) as [p|e|]; cbn [bind]; try reflexivity. cbn [a_start a_len].
  pose proof (at_le _ _ _ _ HI) as LI. destruct (box_ok_hd _ BMI) as (_ & _ & LI1 & LI2 & _). rewrite at_seek by lia.
  destruct (minf_read data (mo_mode o) _ _ (f_i1 f) _ (f_stbl f) (f_i2 f) _ (f_stsd f) (f_stts f) (f_s1 f) (f_s2 f) (f_s3 f) eq_refl HI BMI N5 N6 N7 HST) as (q3 & E).
  change (Node _ ($"minf") _) with (f_minf f) in E. rewrite E. clear E. cbn [bind]. unfold rest_of. destruct (read_stsd (f_stsd f) (mo_mode o) p) as [p'|e|]; cbn [bind]; try reflexivity.
  destruct (h_duration (f_media f) =? 0); [reflexivity|]. unfold data. rewrite mdat_read by exact HO. now destruct (mdat_size (f_top f)).
Qed.
