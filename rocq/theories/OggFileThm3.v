(** Property theorems for OGG files: audio properties (C101) and totality (C102). *)
From Verif Require Import BaseLemmas StrLemmas TextProof PictureThm OggSpec OggCrcProof OggProof OggReadProof OggPacketsProof OggPagProof OggFinal VorbisThm FlacMoveThm RfindThm.
From Verif Require Import OggFileModel OggFileProof OggFileThm OggFileThm2.

(** [d] is [num / den] rounded to the nearest integer. *)
Definition nearest (num den d : N) : Prop := 2 * num <= 2 * (den * d) + den /\ 2 * (den * d) <= 2 * num + den.
Lemma round_nearest : forall num den, 0 < den -> nearest num den ((num + den / 2) / den).
Proof.
  intros num den H. set (d := (num + den / 2) / den). assert (D := N.div_mod (num + den / 2) den ltac:(lia)). fold d in D.
  assert (M := N.mod_lt (num + den / 2) den ltac:(lia)). assert (D2 := N.div_mod den 2 ltac:(lia)). assert (M2 := N.mod_lt den 2 ltac:(lia)).
  set (m := (num + den / 2) mod den) in *. set (h := den / 2) in *. set (m2 := den mod 2) in *. set (x := den * d) in *. unfold nearest. fold x. lia.
Qed.

(** Reading a laid out file: the tag is read or not, then the properties follow. *)
Lemma unwrap_nth : forall p i, pk_wf p -> pk_unwrap p (N.of_nat i) = match nth_error (pk_abs p) i with Some c => Ok c | None => Panic end.
Proof. intros. unfold pk_unwrap. rewrite pk_get_spec by auto. reflexivity. Qed.
Definition header_page (p : page) : page := mkPage 0 (pg_flag p) (pg_abgp p) (pg_serial p) (pg_seq p) (pg_segs p) (pg_cksum p) [] 0.
Definition whole (pk : list bytes) : packets := mkPackets (concat pk) (map lenN pk).
Lemma read_from_layout : forall f o tags hp ap tail x vb extra rest,
  ogg_layout f hp ap tail (head_sig f ++ x) vb extra rest ->
  exists first, nth_error hp 0 = Some first /\
  ogg_read_from f o tags (ogg_data hp ap tail) =
    let c := le_enc 4 (lenN vb) ++ vb ++ extra in
    let pk := whole ((head_sig f ++ x) :: (comment_sig f ++ c) :: rest) in
    if tags then match read_comments o (lenN c) c with Ok t => Ok (Some t, header_page first, pk, lenN (bytes_of hp)) | Err e => Err (OComments e) | Panic => Panic end
    else Ok (None, header_page first, pk, lenN (bytes_of hp)).
Proof.
  intros f o tags hp ap tail x vb extra rest [H C F V P B T]. cbv zeta.
  destruct (first_header hp _ (bytes_of ap ++ tail) H ltac:(discriminate)) as (p & hp' & E & PO & HR).
  exists p. split. now rewrite E. unfold ogg_read_from, ogg_data. rewrite HR. cbn [opg bind].
  set (c := le_enc 4 (lenN vb) ++ vb ++ extra) in *.
  replace (Z.of_N (header_count f)) with (Z.of_N (lenN ((head_sig f ++ x) :: (comment_sig f ++ c) :: rest))) by (rewrite !lenN_cons; lia).
  rewrite (read_count_exact hp _ _ H) by discriminate. cbn [opg bind].
  destruct (pk_whole ((head_sig f ++ x) :: (comment_sig f ++ c) :: rest)) as [WF AB].
  replace (lenN (bytes_of hp ++ bytes_of ap ++ tail) - lenN (bytes_of ap ++ tail)) with (lenN (bytes_of hp)) by (rewrite !lenN_app; lia).
  change 0 with (N.of_nat 0) at 1. rewrite pk_some_nth by auto. rewrite AB. cbn [nth_error bind]. rewrite verify_app. cbn [bind].
  destruct tags; cbn [negb]; [|reflexivity].
  change 1 with (N.of_nat 1) at 1. rewrite pk_some_nth by auto. rewrite AB. cbn [nth_error bind]. rewrite verify_app. cbn [bind].
  rewrite dropN_app by auto. reflexivity.
Qed.
(** The file with properties: as without, plus [pr]. *)
Definition with_props (r : res ogg_error (vc * ogg_props)) (pr : ogg_props) : res ogg_error (vc * ogg_props) :=
  match r with Ok (t, _) => Ok (t, pr) | Err e => Err e | Panic => Panic end.

Lemma last_of_layout : forall hp ap l tail, page_ok l -> no_oggs (as_bytes l ++ tail) = true ->
  exists p, find_last_page (ogg_data hp (ap ++ [l]) tail) (lenN (bytes_of hp)) = Ok p /\ pg_abgp p = pg_abgp l.
Proof.
  intros hp ap l tail O H. destruct (C100_last_page_plain (bytes_of hp ++ bytes_of ap) l tail (lenN (bytes_of hp)) O) as (p & E & FE & _).
  { rewrite lenN_app. lia. } { exact H. }
  exists p. split. rewrite <- E. f_equal. unfold ogg_data. rewrite bytes_of_app. cbn [bytes_of flat_map]. rewrite app_nil_r, <- !app_assoc. reflexivity.
  now apply (f_equal f_abgp) in FE.
Qed.

(** Speaker positions as bits of the channel mask. *)
Definition spk (l : list N) : N := fold_right (fun i m => 2 ^ i + m) 0 l.
Definition FL := 0. Definition FR := 1. Definition FC := 2. Definition LFE := 3. Definition BL := 4. Definition BR := 5. Definition BC := 8. Definition SL := 9. Definition SR := 10.
(** RFC 7845 section 5.1.1.2 *)
Definition opus_layout (channels : N) : list N :=
  match channels with
  | 1 => [FC] | 2 => [FL; FR] | 3 => [FL; FC; FR] | 4 => [FL; FR; BL; BR] | 5 => [FL; FC; FR; BL; BR] | 6 => [FL; FC; FR; BL; BR; LFE]
  | 7 => [FL; FC; FR; SL; SR; BC; LFE] | 8 => [FL; FC; FR; SL; SR; BL; BR; LFE] | _ => []
  end.
Lemma opus_mask_spec : forall c, 1 <= c <= 8 -> opus_mask c = Some (spk (opus_layout c)).
Proof. intros c H. assert (E : c = 1 \/ c = 2 \/ c = 3 \/ c = 4 \/ c = 5 \/ c = 6 \/ c = 7 \/ c = 8) by lia. destruct E as [->|[->|[->|[->|[->|[->|[->|]]]]]]]; subst; reflexivity. Qed.

Definition opus_ident (version channels pre_skip rate gain family : N) (x : bytes) : bytes :=
  [version; channels] ++ le_enc 2 pre_skip ++ le_enc 4 rate ++ le_enc 2 gain ++ [family] ++ x.
(** C101, Opus *)
Theorem C101_opus : forall o tags hp ap l tail version channels pre_skip rate gain family x vb extra first total,
  ogg_layout Opus hp (ap ++ [l]) tail (head_sig Opus ++ opus_ident version channels pre_skip rate gain family x) vb extra [] ->
  pre_skip < 2 ^ 16 -> rate < 2 ^ 32 -> gain < 2 ^ 16 -> 1 <= channels <= (if family =? 0 then 2 else 8) ->
  nth_error hp 0 = Some first -> no_oggs (as_bytes l ++ tail) = true ->
  pg_abgp l = pg_abgp first + pre_skip + total -> 24 <= total -> total * 1000 + 24000 < 2 ^ 64 -> lenN (ogg_data hp (ap ++ [l]) tail) < 2 ^ 61 ->
  exists d stream, nearest (total * 1000) 48000 d /\
    stream + lenN (head_sig Opus ++ opus_ident version channels pre_skip rate gain family x) + lenN (comment_sig Opus ++ le_enc 4 (lenN vb) ++ vb ++ extra) = lenN (ogg_data hp (ap ++ [l]) tail) /\
    ogg_file_read Opus o tags true (ogg_data hp (ap ++ [l]) tail) =
    with_props (ogg_file_read Opus o tags false (ogg_data hp (ap ++ [l]) tail))
      (POpus (mkOp version channels (spk (opus_layout channels)) rate gain d
        ((lenN (ogg_data hp (ap ++ [l]) tail) * 8 / d) mod 2 ^ 32) ((stream * 8 / d) mod 2 ^ 32))).
Proof.
  intros o tags hp ap l tail version channels pre_skip rate gain family x vb extra first total L R1 R2 R3 CH NF NO TT T1 T2 DL.
  set (data := ogg_data hp (ap ++ [l]) tail) in *. set (id := head_sig Opus ++ opus_ident version channels pre_skip rate gain family x) in *.
  set (c := comment_sig Opus ++ le_enc 4 (lenN vb) ++ vb ++ extra) in *.
  destruct (read_from_layout Opus o tags hp (ap ++ [l]) tail _ vb extra [] L) as (first' & NF' & RF).
  assert (first' = first) by congruence. subst first'. cbv zeta in RF. fold id c in RF. fold data in RF.
  assert (OL : page_ok l). { pose proof (ol_pages _ _ _ _ _ _ _ _ L) as X. apply Forall_app in X as [_ X]. now inversion X. }
  destruct (last_of_layout hp ap l tail OL NO) as (lp & FL' & AB). fold data in FL'.
  set (d := (total * 1000 + 24000) / 48000).
  assert (d0 : d <> 0). { unfold d. assert (1 <= (total * 1000 + 24000) / 48000); [|lia]. apply N.div_le_lower_bound; lia. }
  assert (LE : lenN id + lenN c <= lenN data).
  { destruct L as [(HO & HD & HC) _ _ _ _ _ _]. unfold data, ogg_data. rewrite !lenN_app. assert (lenN (content_of hp) <= lenN (bytes_of hp)).
    { clear. induction hp as [|p hp IH]; cbn [content_of bytes_of flat_map]; [lia|]. rewrite !lenN_app. fold (content_of hp) (bytes_of hp). unfold as_bytes. rewrite !lenN_app. lia. }
    rewrite HC in H. cbn [concat] in H. rewrite app_nil_r, lenN_app in H. fold id c in H. lia. }
  exists d, (lenN data - (lenN id + lenN c)). split. { exact (round_nearest (total * 1000) 48000 ltac:(lia)). } split. lia.
  unfold ogg_file_read. rewrite RF. destruct (pk_whole [id; c]) as [WF AB']. fold (whole [id; c]) in WF, AB'.
  assert (OP : opus_properties data (header_page first) (whole [id; c]) (lenN (bytes_of hp)) =
     Ok (mkOp version channels (spk (opus_layout channels)) rate gain d ((lenN data * 8 / d) mod 2 ^ 32) (((lenN data - (lenN id + lenN c)) * 8 / d) mod 2 ^ 32))).
  { unfold opus_properties. change 0 with (N.of_nat 0) at 1. rewrite unwrap_nth by exact WF. rewrite AB'. cbn [nth_error bind].
    assert (L8 : 8 <= lenN id) by (unfold id; rewrite lenN_app; change (lenN (head_sig Opus)) with 8; lia).
    destruct (N.ltb_spec (lenN id) 8); [lia|]. unfold id at 1. rewrite dropN_app by reflexivity. unfold opus_ident. cbn [app read_u8 ord bind].
    rewrite (read_le_app 2) by (auto; lia). cbn [ord bind]. rewrite (read_le_app 4) by (auto; lia). cbn [ord bind]. rewrite (read_le_app 2) by (auto; lia). cbn [ord bind read_u8].
    replace (((family =? 0) && (2 <? channels)) || ((family =? 1) && (8 <? channels))) with false.
    2:{ symmetry. destruct (family =? 0); destruct (N.ltb_spec 2 channels); destruct (N.ltb_spec 8 channels); destruct (family =? 1); cbn; auto; lia. }
    rewrite opus_mask_spec by (destruct (family =? 0); lia). rewrite FL', AB, TT. cbn [header_page pg_abgp].
    replace (pg_abgp first + pre_skip + total - pg_abgp first - pre_skip) with total by lia. destruct (N.ltb_spec 0 total); [|lia].
    unfold mul64, div_round, div64, U64_MAX. change (2 ^ 64) with 18446744073709551616 in T2. change (2 ^ 61) with 2305843009213693952 in DL.
    destruct (N.ltb_spec 18446744073709551615 (total * 1000)); [lia|]. cbn [bind]. change (48000 / 2) with 24000.
    destruct (N.ltb_spec 18446744073709551615 (total * 1000 + 24000)); [lia|]. change (48000 =? 0) with false. cbn iota. cbn [bind]. fold d.
    change 1 with (N.of_nat 1) at 1. rewrite unwrap_nth by exact WF. rewrite AB'. cbn [nth_error bind].
    destruct (N.ltb_spec (lenN data) (lenN id + lenN c)); [lia|].
    destruct (N.ltb_spec 18446744073709551615 (lenN data * 8)); [lia|]. cbn [bind]. destruct (N.eqb_spec d 0); [congruence|]. cbn [bind].
    destruct (N.ltb_spec 18446744073709551615 ((lenN data - (lenN id + lenN c)) * 8)); [lia|]. cbn [bind]. reflexivity. }
  destruct tags; [destruct (read_comments _ _ _) as [t| |]; auto|]; cbn [bind]; rewrite OP; reflexivity.
Qed.
Print Assumptions C101_opus.
Example C101_opus_ex : ogg_file_read Opus (mkVo true true Strict) true true (ogg_data ex_hp ex_ap []) =
  Ok (mkVc ($"abc") [] [], POpus (mkOp 1 2 3 48000 0 2000 0 0)) /\ 96312 = 0 + 312 + 96000 /\ no_oggs (as_bytes (pg 4 96312 7 3 [4; 5])) = true.
Proof. vm_compute. auto. Qed.

(** C101, Vorbis. The bit rates are signed: [positive32] says that the number is positive. *)
Definition vorbis_ident (version channels rate bmax bnom bmin : N) (x : bytes) : bytes :=
  le_enc 4 version ++ [channels] ++ le_enc 4 rate ++ le_enc 4 bmax ++ le_enc 4 bnom ++ le_enc 4 bmin ++ x.
Theorem C101_vorbis : forall o tags hp ap l tail version channels rate bmax bnom bmin x vb extra setup first total,
  ogg_layout OVorbis hp (ap ++ [l]) tail (head_sig OVorbis ++ vorbis_ident version channels rate bmax bnom bmin x) vb extra [setup] ->
  version < 2 ^ 32 -> 0 < rate < 2 ^ 32 -> bmax < 2 ^ 32 -> bnom < 2 ^ 32 -> bmin < 2 ^ 32 ->
  nth_error hp 0 = Some first -> no_oggs (as_bytes l ++ tail) = true ->
  pg_abgp l = pg_abgp first + total -> 0 < total -> total * 1000 + rate < 2 ^ 64 * rate -> lenN (ogg_data hp (ap ++ [l]) tail) < 2 ^ 61 ->
  exists d, nearest (total * 1000) rate d /\
    ogg_file_read OVorbis o tags true (ogg_data hp (ap ++ [l]) tail) =
    with_props (ogg_file_read OVorbis o tags false (ogg_data hp (ap ++ [l]) tail))
      (PVorbis (mkVp version channels rate bmax bnom bmin d
        (if d =? 0 then 0 else (lenN (ogg_data hp (ap ++ [l]) tail) * 8 / d) mod 2 ^ 32) (if bnom <? 2 ^ 31 then bnom / 1000 else 0))).
Proof.
  intros o tags hp ap l tail version channels rate bmax bnom bmin x vb extra setup first total L R1 R2 R3 R4 R5 NF NO TT T1 T2 DL.
  set (data := ogg_data hp (ap ++ [l]) tail) in *. set (id := head_sig OVorbis ++ vorbis_ident version channels rate bmax bnom bmin x) in *.
  set (c := comment_sig OVorbis ++ le_enc 4 (lenN vb) ++ vb ++ extra) in *.
  destruct (read_from_layout OVorbis o tags hp (ap ++ [l]) tail _ vb extra [setup] L) as (first' & NF' & RF).
  assert (first' = first) by congruence. subst first'. cbv zeta in RF. fold id c in RF. fold data in RF.
  assert (OL : page_ok l). { pose proof (ol_pages _ _ _ _ _ _ _ _ L) as X. apply Forall_app in X as [_ X]. now inversion X. }
  destruct (last_of_layout hp ap l tail OL NO) as (lp & FL' & AB). fold data in FL'.
  set (d := (total * 1000 + rate / 2) / rate).
  exists d. split. { exact (round_nearest (total * 1000) rate ltac:(lia)). }
  unfold ogg_file_read. rewrite RF. destruct (pk_whole [id; c; setup]) as [WF AB']. fold (whole [id; c; setup]) in WF, AB'.
  assert (HR : rate / 2 <= rate) by (apply N.div_le_upper_bound; lia).
  assert (D64 : d < 2 ^ 64) by (apply N.div_lt_upper_bound; lia).
  assert (OP : vorbis_properties data (header_page first) (whole [id; c; setup]) (lenN (bytes_of hp)) =
     Ok (mkVp version channels rate bmax bnom bmin d (if d =? 0 then 0 else (lenN data * 8 / d) mod 2 ^ 32) (if bnom <? 2 ^ 31 then bnom / 1000 else 0))).
  { unfold vorbis_properties. change 0 with (N.of_nat 0) at 1. rewrite unwrap_nth by exact WF. rewrite AB'. cbn [nth_error bind].
    assert (L8 : 7 <= lenN id) by (unfold id; rewrite lenN_app; change (lenN (head_sig OVorbis)) with 7; lia).
    destruct (N.ltb_spec (lenN id) 7); [lia|]. unfold id at 1. rewrite dropN_app by reflexivity. unfold vorbis_ident. 
    rewrite (read_le_app 4) by (auto; lia). cbn [ord bind app read_u8]. do 4 (rewrite (read_le_app 4) by (auto; lia); cbn [ord bind]).
    rewrite FL', AB, TT. cbn [header_page pg_abgp].
    replace (pg_abgp first + total - pg_abgp first) with total by lia. destruct (N.ltb_spec 0 total); [|lia]. destruct (N.ltb_spec 0 rate); [|lia]. cbn [andb bind].
    fold d. rewrite N.mod_small by auto. unfold bits, u32. rewrite N.min_l by (unfold U64_MAX; change (2 ^ 61) with 2305843009213693952 in DL; lia).
    do 2 f_equal. unfold positive32. destruct (N.ltb_spec 0 bnom); cbn [andb]; auto. replace bnom with 0 by lia. reflexivity. }
  destruct tags; [destruct (read_comments _ _ _) as [t| |]; auto|]; cbn [bind]; rewrite OP; reflexivity.
Qed.
Print Assumptions C101_vorbis.

(** C101, Speex *)
Definition speex_ident (version rate mode channels nominal vbr : N) (vs hs mb fs x : bytes) : bytes :=
  vs ++ le_enc 4 version ++ hs ++ le_enc 4 rate ++ le_enc 4 mode ++ mb ++ le_enc 4 channels ++ le_enc 4 nominal ++ fs ++ le_enc 4 vbr ++ x.
Lemma read_le_any : forall x r, lenN x = 4 -> read_le 4 (x ++ r) = Some (le_dec x, r).
Proof. intros. unfold read_le. rewrite read_exact_app by auto. reflexivity. Qed.
Theorem C101_speex : forall o tags hp ap l tail version rate mode channels nominal vbr vs hs mb fs x vb extra first total,
  ogg_layout Speex hp (ap ++ [l]) tail (head_sig Speex ++ speex_ident version rate mode channels nominal vbr vs hs mb fs x) vb extra [] ->
  lenN vs = 20 -> lenN hs = 4 -> lenN mb = 4 -> lenN fs = 4 -> 16 <= lenN x ->
  version <= 1 -> 0 < rate < 2 ^ 32 -> mode < 2 ^ 32 -> 1 <= channels <= 2 -> nominal < 2 ^ 32 -> vbr < 2 ^ 32 ->
  nth_error hp 0 = Some first -> no_oggs (as_bytes l ++ tail) = true ->
  pg_abgp l = pg_abgp first + total -> 0 < total -> rate <= 2 * (total * 1000) -> total * 1000 + rate < 2 ^ 64 -> lenN (ogg_data hp (ap ++ [l]) tail) < 2 ^ 60 ->
  exists d stream overall audio, nearest (total * 1000) rate d /\
    stream + lenN (head_sig Speex ++ speex_ident version rate mode channels nominal vbr vs hs mb fs x) + lenN (comment_sig Speex ++ le_enc 4 (lenN vb) ++ vb ++ extra) = lenN (ogg_data hp (ap ++ [l]) tail) /\
    (if (0 <? nominal) && (nominal <? 2 ^ 31) then overall = (lenN (ogg_data hp (ap ++ [l]) tail) * 8 / d) /\ audio = nominal / 1000
     else nearest (lenN (ogg_data hp (ap ++ [l]) tail) * 8) d overall /\ nearest (stream * 8) d audio) /\
    (overall < 2 ^ 32 -> audio < 2 ^ 32 -> ogg_file_read Speex o tags true (ogg_data hp (ap ++ [l]) tail) =
    with_props (ogg_file_read Speex o tags false (ogg_data hp (ap ++ [l]) tail))
      (PSpeex (mkSp version rate mode channels (vbr =? 1) nominal d overall audio))).
Proof.
  intros o tags hp ap l tail version rate mode channels nominal vbr vs hs mb fs x vb extra first total L V1 V2 V3 V4 V5 R1 R2 R3 R4 R5 R6 NF NO TT T1 T2 T3 DL.
  set (data := ogg_data hp (ap ++ [l]) tail) in *. set (id := head_sig Speex ++ speex_ident version rate mode channels nominal vbr vs hs mb fs x) in *.
  set (c := comment_sig Speex ++ le_enc 4 (lenN vb) ++ vb ++ extra) in *.
  destruct (read_from_layout Speex o tags hp (ap ++ [l]) tail _ vb extra [] L) as (first' & NF' & RF).
  assert (first' = first) by congruence. subst first'. cbv zeta in RF. fold id c in RF. fold data in RF.
  assert (OL : page_ok l). { pose proof (ol_pages _ _ _ _ _ _ _ _ L) as X. apply Forall_app in X as [_ X]. now inversion X. }
  destruct (last_of_layout hp ap l tail OL NO) as (lp & FL' & AB). fold data in FL'.
  set (d := (total * 1000 + rate / 2) / rate).
  assert (HR : rate / 2 <= rate) by (apply N.div_le_upper_bound; lia).
  assert (d1 : 1 <= d). { apply N.div_le_lower_bound; [lia|]. pose proof (N.div_mod rate 2 ltac:(lia)). pose proof (N.mod_lt rate 2 ltac:(lia)). lia. }
  assert (D64 : d < 2 ^ 64). { apply N.div_lt_upper_bound; [lia|]. change (2 ^ 64) with 18446744073709551616 in *. nia. }
  assert (DH : d / 2 <= 2 ^ 63). { apply N.div_le_upper_bound; [lia|]. change (2 ^ 64) with 18446744073709551616 in *. change (2 * 2 ^ 63) with 18446744073709551616. lia. }
  assert (LE : lenN id + lenN c <= lenN data).
  { destruct L as [(HO & HD & HC) _ _ _ _ _ _]. unfold data, ogg_data. rewrite !lenN_app. assert (lenN (content_of hp) <= lenN (bytes_of hp)).
    { clear. induction hp as [|p hp IH]; cbn [content_of bytes_of flat_map]; [lia|]. rewrite !lenN_app. fold (content_of hp) (bytes_of hp). unfold as_bytes. rewrite !lenN_app. lia. }
    rewrite HC in H. cbn [concat] in H. rewrite app_nil_r, lenN_app in H. fold id c in H. lia. }
  set (stream := lenN data - (lenN id + lenN c)).
  exists d, stream, (if positive32 nominal then lenN data * 8 / d else (lenN data * 8 + d / 2) / d), (if positive32 nominal then nominal / 1000 else (stream * 8 + d / 2) / d).
  split. { exact (round_nearest (total * 1000) rate ltac:(lia)). } split. { unfold stream. lia. } split.
  { unfold positive32. destruct (_ && _). auto. split; apply round_nearest; lia. }
  intros O1 O2. unfold ogg_file_read. rewrite RF. destruct (pk_whole [id; c]) as [WF AB']. fold (whole [id; c]) in WF, AB'.
  assert (OP : speex_properties data (header_page first) (whole [id; c]) (lenN (bytes_of hp)) =
     Ok (mkSp version rate mode channels (vbr =? 1) nominal d (if positive32 nominal then lenN data * 8 / d else (lenN data * 8 + d / 2) / d) (if positive32 nominal then nominal / 1000 else (stream * 8 + d / 2) / d))).
  { unfold speex_properties. change 0 with (N.of_nat 0) at 1. rewrite unwrap_nth by exact WF. rewrite AB'. cbn [nth_error bind].
    assert (L8 : 80 <= lenN id). { unfold id, speex_ident. rewrite !lenN_app, !le_enc_len. change (lenN (head_sig Speex)) with 8. lia. }
    destruct (N.ltb_spec (lenN id) 80); [lia|]. unfold id at 1, speex_ident. rewrite (app_assoc (head_sig Speex)), dropN_app by (rewrite lenN_app, V1; reflexivity).
    rewrite (read_le_app 4) by (auto; lia). cbn [ord bind]. destruct (N.ltb_spec 1 version); [lia|]. rewrite read_le_any by auto. cbn [ord bind].
    do 2 (rewrite (read_le_app 4) by (auto; lia); cbn [ord bind]). rewrite read_le_any by auto. cbn [ord bind].
    rewrite (read_le_app 4) by (auto; lia). cbn [ord bind]. replace (negb (channels =? 1) && negb (channels =? 2)) with false by (destruct (N.eqb_spec channels 1), (N.eqb_spec channels 2); cbn; auto; lia).
    rewrite (read_le_app 4) by (auto; lia). cbn [ord bind]. rewrite read_le_any by auto. cbn [ord bind]. rewrite (read_le_app 4) by (auto; lia). cbn [ord bind].
    rewrite FL', AB, TT. cbn [header_page pg_abgp].
    replace (pg_abgp first + total - pg_abgp first) with total by lia. destruct (N.ltb_spec 0 total); [|lia]. destruct (N.ltb_spec 0 rate); [|lia]. cbn [andb bind].
    cbn [whole pk_sizes map]. change (takeN 2 [lenN id; lenN c]) with [lenN id; lenN c]. cbn [sumN]. rewrite N.add_0_r. fold stream.
    unfold mul64, div_round, div64, bits, u32, U64_MAX. change (2 ^ 64) with 18446744073709551616 in *. change (2 ^ 60) with 1152921504606846976 in *. change (2 ^ 63) with 9223372036854775808 in *.
    destruct (N.ltb_spec 18446744073709551615 (total * 1000)); [lia|]. cbn [bind].
    destruct (N.ltb_spec 18446744073709551615 (total * 1000 + rate / 2)); [lia|]. destruct (N.eqb_spec rate 0); [lia|]. cbn [bind]. fold d.
    destruct (N.eqb_spec d 0); [lia|]. rewrite !N.min_l by (unfold stream; lia).
    destruct (positive32 nominal).
    - cbn [bind]. rewrite N.mod_small by exact O1. reflexivity.
    - assert (stream <= lenN data) by (unfold stream; lia). set (h := d / 2) in *. destruct (N.ltb_spec 18446744073709551615 (lenN data * 8 + h)); [lia|]. cbn [bind].
      destruct (N.ltb_spec 18446744073709551615 (stream * 8 + h)); [lia|]. cbn [bind]. rewrite !N.mod_small by auto. reflexivity. }
  destruct tags; [destruct (read_comments _ _ _) as [t| |]; auto|]; cbn [bind]; rewrite OP; reflexivity.
Qed.
Print Assumptions C101_speex.
Definition ex_vorbis : bytes * list page * list page :=
  let id := head_sig OVorbis ++ vorbis_ident 0 2 44100 0 128000 0 [184; 1] in
  let c := comment_sig OVorbis ++ le_enc 4 0 ++ [] ++ le_enc 4 0 ++ [1] in
  (id, [pg 2 0 7 0 id; crc_page (mkPage 0 0 0 7 1 [16; 3] 0 (c ++ [5; 6; 7]) 0)], [pg 4 88200 7 2 [1; 2]]).
Example C101_vorbis_ex : let '(id, hp, ap) := ex_vorbis in
  ogg_file_read OVorbis (mkVo true true Strict) true true (ogg_data hp ap []) = Ok (mkVc [] [] [], PVorbis (mkVp 0 2 44100 0 128000 0 2000 0 128)).
Proof. vm_compute. reflexivity. Qed.
Definition ex_speex (last : N) : bytes :=
  let id := head_sig Speex ++ speex_ident 1 8000 0 1 0 0 (repeat 0 20) (le_enc 4 80) (le_enc 4 4) (le_enc 4 160) (repeat 0 16) in
  let c := le_enc 4 0 ++ le_enc 4 0 in
  ogg_data [pg 2 0 7 0 id; pg 0 0 7 1 c] [pg 4 last 7 2 (repeat 9 200)] [].
Example C101_speex_ex : ogg_file_read Speex (mkVo true true Strict) true true (ex_speex 800) = Ok (mkVc [] [] [], PSpeex (mkSp 1 8000 0 1 false 0 100 30 23)).
Proof. vm_compute. reflexivity. Qed.

(** ** C102: totality *)
Definition rs_len (s : rstate) := lenN (rs_content s).
Lemma read_segs_len : forall count segs s r b s' r', read_segs count segs s r = Ok (b, s', r') -> rs_len s' + lenN r' = rs_len s + lenN r.
Proof.
  intros count. induction segs as [|a segs IH]; intros s r b s' r' H; cbn [read_segs] in H. { inversion H; subst. reflexivity. }
  destruct (a <? 255).
  - destruct (byte_count_to_read _ _) as [[n al]| |]; cbn [bind] in H; try discriminate. destruct (read_exact n r) as [[buf r1]|] eqn:E; cbn [io bind] in H; try discriminate.
    apply read_exact_spec in E as [-> E]. match type of H with (if ?c then _ else _) = _ => destruct c end.
    + inversion H; subst. unfold rs_len. cbn [rs_content]. rewrite !lenN_app. lia.
    + apply IH in H. rewrite H. unfold rs_len. cbn [rs_content]. rewrite !lenN_app. lia.
  - apply IH in H. exact H.
Qed.
Lemma header_read_len : forall pos r h r', header_read pos r = Ok (h, r') -> lenN r' <= lenN r.
Proof. intros. apply header_read_shrinks in H. unfold lenN. lia. Qed.
Lemma read_pages_len : forall fuel count s r s' r', read_pages fuel count s r = Ok (s', r') -> rs_len s' + lenN r' <= rs_len s + lenN r.
Proof.
  induction fuel; intros count s r s' r' H; cbn [read_pages] in H; [discriminate|].
  destruct (header_read 0 r) as [[h r1]|e|] eqn:E; [|inversion H; subst; lia|discriminate]. apply header_read_len in E.
  destruct (read_segs _ _ _ _) as [[[stop s1] r2]| |] eqn:E2; cbn [bind] in H; try discriminate. apply read_segs_len in E2.
  destruct stop. { inversion H; subst. lia. }
  destruct (negb _); [|apply IHfuel in H; lia]. destruct (byte_count_to_read _ _) as [[n al]| |]; cbn [bind] in H; try discriminate.
  destruct (read_exact n r2) as [[buf r3]|] eqn:E3; cbn [io bind] in H; try discriminate. apply read_exact_spec in E3 as [-> E3].
  apply IHfuel in H. unfold rs_len in *. cbn [rs_content] in H. rewrite lenN_app in *. lia.
Qed.
Lemma read_count_facts : forall r count p r', (0 < count)%Z -> read_count r count = Ok (p, r') ->
  pk_wf p /\ lenN (pk_content p) + lenN r' <= lenN r /\ Z.of_nat (length (pk_sizes p)) = count.
Proof.
  intros r count p r' C H. pose proof (read_count_total r count) as T. rewrite H in T. split; auto. unfold read_count in H.
  destruct (Z.eqb_spec count 0); [lia|]. destruct (Z.ltb_spec count (-1)); [lia|]. cbn [orb] in H.
  destruct (read_pages _ _ _ _) as [[s r1]| |] eqn:E; cbn [bind] in H; try discriminate. apply read_pages_len in E.
  destruct (Z.eqb_spec count (-1)); [lia|]. destruct (Z.eqb_spec (Z.of_nat (length (rs_sizes s))) count); cbn [negb andb] in H; [|discriminate].
  inversion H; subst p r'. cbn [pk_content pk_sizes]. unfold rs_len in E. cbn [rs_content] in E. change (lenN (@nil N)) with 0 in E. split; auto.
Qed.
Lemma page_read_nopanic : forall pos r, page_read pos r <> Panic.
Proof.
  intros pos r H. unfold page_read in H. pose proof (header_read_nopanic pos r). destruct (header_read pos r) as [[h r1]| |]; cbn [bind] in H; try congruence; try discriminate.
  destruct (read_exact _ _) as [[? ?]|]; cbn [io bind] in H; discriminate.
Qed.
Lemma candidate_nopanic : forall data pos s e, next_candidate data pos s e <> Panic.
Proof. intros data pos s e. unfold next_candidate. destruct (rev_search _ _ _ _ _ _) as [[[] ?]|]; discriminate. Qed.
Lemma find_last_total : forall data pos, find_last_page data pos <> Panic.
Proof.
  intros data pos. unfold find_last_page. pose proof (candidate_nopanic data pos FromEnd EndCurrent). destruct (next_candidate _ _ _ _) as [c| |]; cbn [bind]; try congruence; try discriminate.
  generalize (S (length data)). intro fuel. clear H. revert c. induction fuel; intros c; cbn [last_page_loop]; [discriminate|].
  pose proof (header_read_nopanic c (dropN c data)). pose proof (page_read_nopanic c (dropN c data)). pose proof (candidate_nopanic data c FromCurrent (EndPos pos)).
  destruct (header_read c (dropN c data)) as [h|[]|]; try discriminate; try congruence.
  - destruct (page_read c (dropN c data)) as [[? ?]| |]; cbn [opg bind]; congruence || discriminate.
  - destruct (next_candidate data c FromCurrent (EndPos pos)); cbn [bind]; congruence || discriminate || auto.
  - destruct (next_candidate data c FromCurrent (EndPos pos)); cbn [bind]; congruence || discriminate || auto.
  - destruct (next_candidate data c FromCurrent (EndPos pos)); cbn [bind]; congruence || discriminate || auto.
Qed.

(** The inputs whose properties make the reader panic. *)
Definition opus_hazard (data id : bytes) (first : page) (pos : N) : Prop :=
  (exists ch, nth_error id 9 = Some ch /\ (ch = 0 \/ 8 < ch)) \/
  exists l, find_last_page data pos = Ok l /\
    let total := pg_abgp l - pg_abgp first - le_dec (takeN 2 (dropN 10 id)) in 0 < total /\ (total < 24 \/ 2 ^ 64 <= total * 1000 + 24000).
Definition speex_hazard (data id : bytes) (first : page) (pos : N) : Prop :=
  exists l rate, find_last_page data pos = Ok l /\ rate = le_dec (takeN 4 (dropN 36 id)) /\ 0 < rate /\
    let total := pg_abgp l - pg_abgp first in 0 < total /\ (total * 1000 + rate / 2 < rate \/ 2 ^ 64 <= total * 1000 + rate / 2).

Lemma read_u8_cons : forall r b r', read_u8 r = Some (b, r') -> r = b :: r'. Proof. exact read_u8_spec. Qed.
Tactic Notation "step" hyp(H) ident(a) ident(r) ident(E) := match type of H with bind (ord ?x) _ = Panic => destruct x as [[a r]|] eqn:E; cbn [ord bind] in H; [|discriminate H] end.
Lemma opus_panic : forall data first p pos, (exists c0 c1 r, pk_abs p = c0 :: c1 :: r) -> pk_wf p -> lenN (pk_content p) <= lenN data -> lenN data < 2 ^ 60 ->
  opus_properties data first p pos = Panic -> exists id, nth_error (pk_abs p) 0 = Some id /\ (lenN id < 8 \/ opus_hazard data id first pos).
Proof.
  intros data first p pos (id & c & pr & AB) WF LC LD H. exists id. rewrite AB. split; auto.
  assert (LS : lenN id + lenN c <= lenN data).
  { unfold pk_abs in AB. unfold pk_wf in WF. destruct (pk_sizes p) as [|s0 [|s1 sz]]; cbn [cut_sizes] in AB; try discriminate.
    assert (A1 : id = takeN s0 (pk_content p)) by congruence. assert (A2 : c = takeN s1 (dropN s0 (pk_content p))) by congruence. subst. rewrite !lenN_takeN, lenN_dropN. cbn [sumN] in WF. lia. }
  unfold opus_properties in H. change 0 with (N.of_nat 0) in H at 1. rewrite unwrap_nth in H by auto. rewrite AB in H. cbn [nth_error bind] in H.
  destruct (N.ltb_spec (lenN id) 8); [now left|]. right. unfold opus_hazard.
  step H version r1 E1. step H ch r2 E2. step H ps r3 E3. step H rate r4 E4. step H gain r5 E5. step H family r6 E6.
  apply read_u8_spec in E1, E2. apply read_le_spec in E3 as (b3 & E3 & L3 & ->).
  assert (D10 : dropN 8 id = version :: ch :: b3 ++ r3) by congruence.
  assert (ID : id = takeN 8 id ++ [version; ch] ++ b3 ++ r3) by (rewrite <- (takeN_dropN _ 8 id) at 1; now rewrite D10).
  assert (L8 : lenN (takeN 8 id) = 8) by (rewrite lenN_takeN; lia).
  assert (N9 : nth_error id 9 = Some ch). { rewrite ID, nth_error_app2 by (unfold lenN in L8; lia). replace (9 - length (takeN 8 id))%nat with 1%nat by (unfold lenN in L8; lia). reflexivity. }
  assert (PS : takeN 2 (dropN 10 id) = b3). { rewrite ID, (app_assoc (takeN 8 id)), dropN_app by (rewrite lenN_app, L8; reflexivity). now apply takeN_app. }
  rewrite PS. match type of H with (if ?c then _ else _) = _ => destruct c end; [discriminate|].
  destruct (opus_mask ch) eqn:M. 2:{ left. exists ch. split; auto. destruct (N.eq_dec ch 0); auto. right. destruct (N.le_gt_cases ch 8); auto. exfalso. rewrite opus_mask_spec in M by lia. discriminate. }
  right. pose proof (find_last_total data pos) as FT. destruct (find_last_page data pos) as [l| |]; [|discriminate|congruence]. exists l. split; auto.
  cbv zeta. destruct (N.ltb_spec 0 (pg_abgp l - pg_abgp first - le_dec b3)) as [T|T]; [|discriminate]. split; auto.
  set (total := pg_abgp l - pg_abgp first - le_dec b3) in *. destruct (N.lt_ge_cases total 24); auto. right. destruct (N.lt_ge_cases (total * 1000 + 24000) (2 ^ 64)); auto. exfalso.
  unfold mul64, div_round, div64, U64_MAX in H. change (2 ^ 64) with 18446744073709551616 in *. change (2 ^ 60) with 1152921504606846976 in *.
  destruct (N.ltb_spec 18446744073709551615 (total * 1000)); [lia|]. cbn [bind] in H. change (48000 / 2) with 24000 in H.
  destruct (N.ltb_spec 18446744073709551615 (total * 1000 + 24000)); [lia|]. change (48000 =? 0) with false in H. cbn iota in H. cbn [bind] in H.
  assert (1 <= (total * 1000 + 24000) / 48000) by (apply N.div_le_lower_bound; lia). set (d := (total * 1000 + 24000) / 48000) in *.
  change 1 with (N.of_nat 1) in H at 1. rewrite unwrap_nth in H by auto. rewrite AB in H. cbn [nth_error bind] in H.
  destruct (N.ltb_spec (lenN data) (lenN id + lenN c)); [lia|]. destruct (N.ltb_spec 18446744073709551615 (lenN data * 8)); [lia|]. cbn [bind] in H.
  destruct (N.eqb_spec d 0); [lia|]. cbn [bind] in H. destruct (N.ltb_spec 18446744073709551615 ((lenN data - (lenN id + lenN c)) * 8)); [lia|]. discriminate.
Qed.
Lemma vorbis_panic : forall data first p pos, (exists c0 r, pk_abs p = c0 :: r) -> pk_wf p ->
  vorbis_properties data first p pos = Panic -> exists id, nth_error (pk_abs p) 0 = Some id /\ lenN id < 7.
Proof.
  intros data first p pos (id & pr & AB) WF H. exists id. rewrite AB. split; auto.
  unfold vorbis_properties in H. change 0 with (N.of_nat 0) in H at 1. rewrite unwrap_nth in H by auto. rewrite AB in H. cbn [nth_error bind] in H.
  destruct (N.ltb_spec (lenN id) 7); auto. exfalso.
  step H v1 r1 E1. step H v2 r2 E2. step H v3 r3 E3. step H v4 r4 E4. step H v5 r5 E5. step H v6 r6 E6.
  pose proof (find_last_total data pos) as FT. destruct (find_last_page data pos) as [l| |]; [|discriminate|congruence]. destruct (_ && _); discriminate.
Qed.
Lemma div64_ok : forall a n, 1 <= n -> exists v, div64 a n = (Ok v : res ogg_error N).
Proof. intros. unfold div64. destruct (N.eqb_spec n 0); [lia|]. eauto. Qed.
Lemma div_round_ok : forall a n, 1 <= n -> a + n / 2 < 2 ^ 64 -> div_round a n = (Ok ((a + n / 2) / n) : res ogg_error N).
Proof. intros. unfold div_round, div64, U64_MAX. destruct (N.ltb_spec 18446744073709551615 (a + n / 2)) as [X|X]. change (2 ^ 64) with 18446744073709551616 in *; lia. destruct (N.eqb_spec n 0); [lia|]. reflexivity. Qed.
Lemma mul64_ok : forall a b, a * b < 2 ^ 64 -> mul64 a b = (Ok (a * b) : res ogg_error N).
Proof. intros. unfold mul64, U64_MAX. destruct (N.ltb_spec 18446744073709551615 (a * b)) as [X|X]; auto. change (2 ^ 64) with 18446744073709551616 in *; lia. Qed.
Lemma bits_round : forall x n, x < 2 ^ 60 -> 1 <= n -> n < 2 ^ 64 -> exists v, div_round (bits x) n = (Ok v : res ogg_error N).
Proof.
  intros x n X N1 N2. eexists. apply div_round_ok; auto. assert (n / 2 < 2 ^ 63) by (apply N.div_lt_upper_bound; [lia|]; exact N2). unfold bits.
  assert (N.min (x * 8) U64_MAX <= x * 8) by apply N.le_min_l. change (2 ^ 64) with 18446744073709551616 in *. change (2 ^ 63) with 9223372036854775808 in *. change (2 ^ 60) with 1152921504606846976 in *. lia.
Qed.
Lemma speex_panic : forall data first p pos, (exists c0 r, pk_abs p = c0 :: r) -> pk_wf p -> lenN data < 2 ^ 60 ->
  speex_properties data first p pos = Panic -> exists id, nth_error (pk_abs p) 0 = Some id /\ speex_hazard data id first pos.
Proof.
  intros data first p pos (id & pr & AB) WF LD H. exists id. rewrite AB. split; auto.
  unfold speex_properties in H. change 0 with (N.of_nat 0) in H at 1. rewrite unwrap_nth in H by auto. rewrite AB in H. cbn [nth_error bind] in H.
  destruct (N.ltb_spec (lenN id) 80); [discriminate|].
  step H version r1 E1. destruct (1 <? version); [discriminate|]. step H hs r2 E2. step H rate r3 E3. step H mode r4 E4. step H mb r5 E5. step H ch r6 E6.
  match type of H with (if ?c then _ else _) = _ => destruct c end; [discriminate|]. step H nominal r7 E7. step H fs r8 E8. step H vbr r9 E9.
  apply read_le_spec in E1 as (b1 & E1 & L1 & _), E2 as (b2 & E2 & L2 & _), E3 as (b3 & E3 & L3 & RT).
  assert (D28 : dropN 28 id = b1 ++ b2 ++ b3 ++ r3) by congruence.
  assert (PS : takeN 4 (dropN 36 id) = b3).
  { replace (dropN 36 id) with (dropN 8 (dropN 28 id)) by (rewrite dropN_dropN; reflexivity). rewrite D28, (app_assoc b1), dropN_app by (rewrite lenN_app; lia). now apply takeN_app. }
  unfold speex_hazard. rewrite PS, <- RT. clear RT PS. set (stream := lenN data - sumN (takeN 2 (pk_sizes p))) in *.
  assert (ST : stream <= lenN data) by (unfold stream; lia). clearbody stream.
  pose proof (find_last_total data pos) as FT.
  assert (NP : forall n, 1 <= n -> n < 2 ^ 64 -> exists a b c, div64 (bits (lenN data)) n = (Ok a : res ogg_error N) /\ div_round (bits (lenN data)) n = (Ok b : res ogg_error N) /\ div_round (bits stream) n = (Ok c : res ogg_error N)).
  { intros n N1 N2. destruct (div64_ok (bits (lenN data)) n N1) as [a Ea]. destruct (bits_round (lenN data) n LD N1 N2) as [b Eb]. destruct (bits_round stream n ltac:(lia) N1 N2) as [c Ec].
    exists a, b, c. split; [exact Ea|]. split; [exact Eb|exact Ec]. }
  assert (NQ : forall (known : bool) n, 1 <= n -> n < 2 ^ 64 -> (let? (overall, audio) :=
    (if positive32 nominal then let? a := div64 (bits (lenN data)) n in Ok (u32 a, nominal / 1000)
     else let? a := div_round (bits (lenN data)) n in let? b := div_round (bits stream) n in Ok (u32 a, u32 b)) in
    Ok (mkSp version rate mode ch (vbr =? 1) nominal (if known then n else 0) overall audio)) <> (Panic : res ogg_error speex_props)).
  { intros known n N1 N2. destruct (NP n N1 N2) as (a & b & c & Ea & Eb & Ec). rewrite Ea, Eb, Ec. destruct (positive32 nominal); cbn [bind]; discriminate. }
  assert (NQ0 := NQ false 1000 ltac:(discriminate) ltac:(reflexivity)). cbv iota in NQ0.
  destruct (find_last_page data pos) as [l| |]; [|exfalso; cbn [bind] in H; exact (NQ0 H)|congruence].
  exists l, rate. split; auto. split; auto. cbv zeta.
  destruct (N.ltb_spec 0 rate); cbn [andb] in H; [|exfalso; cbn [bind] in H; exact (NQ0 H)].
  destruct (N.ltb_spec 0 (pg_abgp l - pg_abgp first)); [|exfalso; cbn [bind] in H; exact (NQ0 H)]. split; auto. split; auto.
  set (total := pg_abgp l - pg_abgp first) in *. destruct (N.lt_ge_cases (total * 1000 + rate / 2) rate) as [|B1]; auto. right. destruct (N.lt_ge_cases (total * 1000 + rate / 2) (2 ^ 64)) as [B2|]; auto. exfalso.
  rewrite (mul64_ok total 1000) in H by lia. cbn [bind] in H. rewrite (div_round_ok (total * 1000) rate) in H by lia. cbn [bind] in H.
  revert H. apply (NQ true). { apply N.div_le_lower_bound; lia. } apply N.div_lt_upper_bound; [lia|]. apply N.lt_le_trans with (1 * 2 ^ 64); [lia|]. apply N.mul_le_mono_r. lia.
Qed.
Lemma verify_len : forall c sig u, verify_signature c sig = Ok u -> lenN sig <= lenN c.
Proof.
  intros c sig u H. unfold verify_signature in H. destruct (_ <? _) eqn:E in H; [discriminate|]. apply N.ltb_ge in E. exact E.
Qed.
(** What the reader may panic on. The three header packets are [pk_abs p]. *)
Definition read_hazard (f : ogg_format) (o : vopts) (tags props : bool) (data : bytes) : Prop :=
  exists h r0 p rest id, header_read 0 data = Ok (h, r0) /\ read_count data (Z.of_N (header_count f)) = Ok (p, rest) /\ nth_error (pk_abs p) 0 = Some id /\
  let pos := lenN data - lenN rest in
  (tags = true /\ vo_cover o = true /\ (exists pre c post, nth_error (pk_abs p) 1 = Some (pre ++ c ++ post) /\ tiny_cover c)) \/
  (props = true /\ f = Opus /\ opus_hazard data id h pos) \/
  (props = true /\ f = Speex /\ speex_hazard data id h pos).
Theorem C102_read_total_partial : forall f o tags props data, lenN data < 2 ^ 60 -> ogg_file_read f o tags props data = Panic -> read_hazard f o tags props data.
Proof.
  intros f o tags props data LD H. unfold read_hazard, ogg_file_read, ogg_read_from in *.
  pose proof (header_read_nopanic 0 data) as HN. destruct (header_read 0 data) as [[h r0]| |] eqn:EH; cbn [opg bind] in H; try discriminate; [|congruence].
  pose proof (read_count_total data (Z.of_N (header_count f))) as RT. destruct (read_count data (Z.of_N (header_count f))) as [[p rest]| |] eqn:EC; cbn [opg bind] in H; try discriminate; [|contradiction].
  assert (C2 : (2 <= Z.of_N (header_count f))%Z) by (destruct f; unfold header_count; lia).
  assert (C0 : (0 < Z.of_N (header_count f))%Z) by (clear -C2; lia).
  destruct (read_count_facts _ _ _ _ C0 EC) as (WF & LC & LZ).
  assert (LA : length (pk_abs p) = length (pk_sizes p)) by (unfold pk_abs; apply cut_sizes_length).
  assert (AB : exists c0 c1 r, pk_abs p = c0 :: c1 :: r). { destruct (pk_abs p) as [|c0 [|c1 r]]; cbn [length] in LA; try lia. eauto. }
  destruct AB as (id & c & pr & AB). exists h, r0, p, rest, id. rewrite AB. split; auto. split; auto. split; auto. cbv zeta.
  change 0 with (N.of_nat 0) in H at 1. rewrite (pk_some_nth p 0) in H by auto. rewrite AB in H. cbn [nth_error bind] in H.
  destruct (verify_signature id (head_sig f)) as [u| |] eqn:EV; cbn [bind] in H; try discriminate.
  2:{ unfold verify_signature in EV. destruct (_ <? _) in EV; [discriminate|]. destruct (list_eqb _ _) in EV; discriminate. }
  apply verify_len in EV.
  assert (PR : forall t, (let? (t, h, p, pos) := Ok (t, h, p, lenN data - lenN rest) in
     let? pr := (if props then match f with
       | Opus => let? x := opus_properties data h p pos in Ok (POpus x)
       | OVorbis => let? x := vorbis_properties data h p pos in Ok (PVorbis x)
       | Speex => let? x := speex_properties data h p pos in Ok (PSpeex x) end else Ok PNone) in
     Ok (match t with Some t => t | None => mkVc [] [] [] end, pr)) = (Panic : res ogg_error (vc * ogg_props)) ->
     (props = true /\ f = Opus /\ opus_hazard data id h (lenN data - lenN rest)) \/ (props = true /\ f = Speex /\ speex_hazard data id h (lenN data - lenN rest))).
  { intros t HP. cbn [bind] in HP. destruct props; [|discriminate]. destruct f.
    - left. destruct (opus_properties _ _ _ _) eqn:EO in HP; cbn [bind] in HP; try discriminate. apply opus_panic in EO; eauto; [|lia].
      destruct EO as (id' & E & [X|X]); rewrite AB in E; inversion E; subst id'; auto. change (lenN (head_sig Opus)) with 8 in EV. lia.
    - exfalso. destruct (vorbis_properties _ _ _ _) eqn:EO in HP; cbn [bind] in HP; try discriminate. apply vorbis_panic in EO; eauto.
      destruct EO as (id' & E & X); rewrite AB in E; inversion E; subst id'. change (lenN (head_sig OVorbis)) with 7 in EV. lia.
    - right. destruct (speex_properties _ _ _ _) eqn:EO in HP; cbn [bind] in HP; try discriminate. apply speex_panic in EO; eauto.
      destruct EO as (id' & E & X); rewrite AB in E; inversion E; subst id'; auto. }
  destruct tags; cbn [negb] in H; [|right; eapply PR; exact H].
  change 1 with (N.of_nat 1) in H at 1. rewrite (pk_some_nth p 1) in H by auto. rewrite AB in H. cbn [nth_error bind] in H.
  destruct (verify_signature c (comment_sig f)) as [u2| |] eqn:EV2; cbn [bind] in H; try discriminate.
  2:{ unfold verify_signature in EV2. destruct (_ <? _) in EV2; [discriminate|]. destruct (list_eqb _ _) in EV2; discriminate. }
  destruct (read_comments _ _ _) eqn:ER in H; [right; eapply PR; exact H|discriminate|].
  left. apply C80_read_total_partial in ER as (OC & pre & cc & post & E & TC). split; auto. split; auto. exists (takeN (lenN (comment_sig f)) c ++ pre), cc, post. split; auto.
  cbn [nth_error]. f_equal. rewrite <- app_assoc, <- E. symmetry. apply takeN_dropN.
Qed.
Print Assumptions C102_read_total_partial.

(** Findings. An Opus file with nine channels (mapping family 255, which RFC 7845 5.1.1.3 allows), and
    Opus and Speex files of a few samples, make the reader panic. *)
Definition ex_opus (channels family last : N) : bytes :=
  let id := head_sig Opus ++ [1; channels] ++ le_enc 2 312 ++ le_enc 4 48000 ++ le_enc 2 0 ++ [family] ++ (if family =? 0 then [] else [channels; 0] ++ repeat 0 (N.to_nat channels)) in
  let c := comment_sig Opus ++ le_enc 4 0 ++ le_enc 4 0 in
  ogg_data [pg 2 0 7 0 id; pg 0 0 7 1 c] [pg 4 last 7 2 [1; 2; 3]] [].
Theorem C102_opus_channels_refuted : ~ (forall o data, lenN data < 2 ^ 60 -> ogg_file_read Opus o true true data <> Panic).
Proof. intro H. apply (H (mkVo true true Relaxed) (ex_opus 9 255 48312)); vm_compute; reflexivity. Qed.
Theorem C102_opus_short_refuted : ~ (forall o data, lenN data < 2 ^ 60 -> ogg_file_read Opus o true true data <> Panic).
Proof. intro H. apply (H (mkVo true true Relaxed) (ex_opus 2 0 322)); vm_compute; reflexivity. Qed.
Theorem C102_speex_short_refuted : ~ (forall o data, lenN data < 2 ^ 60 -> ogg_file_read Speex o true true data <> Panic).
Proof. intro H. apply (H (mkVo true true Relaxed) (ex_speex 3)); vm_compute; reflexivity. Qed.
(** The same files are read once the channel count and the length are large enough, or without properties. *)
Example C102_ex : ogg_file_read Opus (mkVo true true Strict) true false (ex_opus 9 255 48312) = Ok (mkVc [] [] [], PNone) /\
  ogg_file_read Opus (mkVo true true Strict) true true (ex_opus 8 255 48312) <> Panic /\
  ogg_file_read Opus (mkVo true true Strict) true true (ex_opus 2 0 336) <> Panic /\
  ogg_file_read Speex (mkVo true true Strict) true true (ex_speex 4) <> Panic.
Proof. repeat split; vm_compute; congruence. Qed.
Print Assumptions C102_opus_channels_refuted.
Print Assumptions C102_opus_short_refuted.
Print Assumptions C102_speex_short_refuted.
