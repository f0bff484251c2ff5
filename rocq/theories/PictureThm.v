(** Property theorems for pictures (C56-C62). *)
From Verif Require Import BaseLemmas StrLemmas TextSpec TextProof PictureModel PictureProof.

(** What the FLAC block can represent exactly. *)
Definition mime_names := [$"image/jpeg"; $"image/jpg"; $"image/png"; $"image/tiff"; $"image/bmp"; $"image/gif"].
Definition plain_text (s : str) := str_ok s /\ s <> [] /\ last s 1 <> 0.
Definition representable (p : picture) : Prop :=
  match p_type p with PUndefined n => 20 < n < 256 | _ => True end /\
  match p_mime p with Some (UnknownMime s) => plain_text s /\ ~ In (lower s) mime_names /\ lenN (utf8_enc s) < 2 ^ 32 | _ => True end /\
  match p_desc p with Some d => plain_text d /\ lenN (utf8_enc d) < 2 ^ 32 | None => True end /\
  lenN (p_data p) < 2 ^ 32 /\ bytes_ok (p_data p).
Definition info_ok (i : pic_info) := i_width i < 2 ^ 32 /\ i_height i < 2 ^ 32 /\ i_depth i < 2 ^ 32 /\ i_colors i < 2 ^ 32.

Lemma mime_back : forall m, match m with UnknownMime s => ~ In (lower s) mime_names | _ => True end -> mime_from_str (mime_as_str m) = m.
Proof.
  intros [| | | | |s] H; try (vm_compute; reflexivity). cbn [mime_as_str]. unfold mime_from_str.
  repeat match goal with |- context [list_eqb (lower s) ?k] =>
    replace (list_eqb (lower s) k) with false by (symmetry; apply list_eqb_neq; intro X; apply H; rewrite X; cbn; tauto) end.
  reflexivity.
Qed.

Lemma str_okb : forall s, forallb scalarb s = true -> str_ok s.
Proof. intros s H. apply Forall_forall. apply forallb_forall. exact H. Qed.

(** C56 *)
Theorem C56_flac_picture : forall p i e m, representable p -> info_ok i ->
  from_flac_bytes (as_flac_bytes p i e) e m = Ok (p, i).
Proof.
  intros p i e m (T & M & D & L & B) (W & H & DP & C).
  assert (M' : lenN (utf8_enc (mime_str p)) < 2 ^ 32 /\ utf8_decode (utf8_enc (mime_str p)) = Ok (mime_str p) /\
    match mime_str p with [] => None | _ => Some (mime_from_str (mime_str p)) end = p_mime p /\ bytes_ok (utf8_enc (mime_str p))).
  { unfold mime_str. destruct (p_mime p) as [mt|].
    - assert (X : mime_as_str mt <> [] /\ mime_from_str (mime_as_str mt) = mt).
      { split. destruct mt; try discriminate. apply M. apply mime_back. destruct mt; tauto. }
      assert (X2 : lenN (utf8_enc (mime_as_str mt)) < 2 ^ 32 /\ plain_text (mime_as_str mt)).
      { destruct mt as [| | | | |s]. 1-5: (split; [vm_compute; reflexivity|split; [apply str_okb; vm_compute; reflexivity|split; [discriminate|vm_compute; discriminate]]]).
        cbn [mime_as_str]. tauto. }
      destruct X as [X X1]. destruct X2 as [X2 (X3 & X4 & X5)]. split; auto. split. apply utf8_field; auto. split.
      rewrite X1. destruct (mime_as_str mt); congruence. apply utf8_enc_ok; auto.
    - split. reflexivity. split. reflexivity. split; auto. constructor. }
  destruct M' as (M1 & M2 & M3 & M4).
  assert (TY : pic_as_u8 (p_type p) < 256) by (destruct (p_type p); cbn; lia).
  assert (TB : pic_from_u8 (pic_as_u8 (p_type p)) = p_type p).
  { apply from_as_u8. intros n E. rewrite E in T. lia. }
  set (body := be_enc 4 (pic_as_u8 (p_type p)) ++ be_enc 4 (lenN (utf8_enc (mime_str p)) mod 2 ^ 32) ++ utf8_enc (mime_str p) ++
    (match p_desc p with Some d => be_enc 4 (lenN (utf8_enc d) mod 2 ^ 32) ++ utf8_enc d | None => [0; 0; 0; 0] end) ++
    be_enc 4 (i_width i) ++ be_enc 4 (i_height i) ++ be_enc 4 (i_depth i) ++ be_enc 4 (i_colors i) ++ be_enc 4 (lenN (p_data p) mod 2 ^ 32) ++ p_data p).
  assert (BO : bytes_ok body).
  { unfold body. rewrite !bytes_ok_app. repeat split; auto; try apply be_enc_ok. destruct (p_desc p) as [d|].
    - rewrite bytes_ok_app. split. apply be_enc_ok. apply utf8_enc_ok. apply D.
    - repeat constructor. }
  assert (INNER : from_flac_inner body m = Ok (p, i)).
  { unfold from_flac_inner, body. clear body BO.
    assert (DL : 4 <= lenN (match p_desc p with Some d => be_enc 4 (lenN (utf8_enc d) mod 2 ^ 32) ++ utf8_enc d | None => [0; 0; 0; 0] end)).
    { destruct (p_desc p). rewrite lenN_app, be_enc_len. lia. reflexivity || (vm_compute; discriminate). }
    match goal with |- context [lenN ?l <? 32] => assert (LL : 32 <= lenN l) by (rewrite !lenN_app, !be_enc_len; lia) end.
    match goal with |- context [lenN ?l <? 32] => replace (lenN l <? 32) with false by lia end. clear LL DL.
    change (2 ^ 32) with 4294967296 in *.
    rewrite read_be_app by (auto; lia). cbn [or_eof bind]. replace (255 <? pic_as_u8 (p_type p)) with false by lia. cbn [andb].
    rewrite (N.mod_small (lenN (utf8_enc (mime_str p)))) by lia. rewrite read_be_app by (auto; lia). cbn [or_eof bind].
    match goal with |- context [lenN ?l <? lenN (utf8_enc (mime_str p))] => replace (lenN l <? lenN (utf8_enc (mime_str p))) with false by (rewrite (lenN_app _ (utf8_enc (mime_str p))); lia) end.
    rewrite takeN_app by auto. rewrite M2. rewrite dropN_app by auto.
    match goal with |- context [flac_desc (_ ++ ?r)] => assert (FD : flac_desc ((match p_desc p with Some d => be_enc 4 (lenN (utf8_enc d) mod 4294967296) ++ utf8_enc d | None => [0; 0; 0; 0] end) ++ r) = Ok (p_desc p, r)) end.
    { unfold flac_desc. destruct (p_desc p) as [d|].
      - destruct D as [(D1 & D2 & D3) D4]. rewrite N.mod_small by lia. rewrite <- app_assoc. rewrite read_be_app by (auto; lia). cbn [or_eof bind].
        assert (P : 0 < lenN (utf8_enc d)). { apply lenN_pos. intro X. apply utf8_enc_nil in X. auto. }
        match goal with |- context [lenN (utf8_enc d) <? ?l] => replace ((0 <? lenN (utf8_enc d)) && (lenN (utf8_enc d) <? l)) with true by (rewrite (lenN_app _ (utf8_enc d)), !lenN_app, !be_enc_len; lia) end.
        rewrite takeN_app by auto. rewrite utf8_field by auto. rewrite dropN_app by auto. reflexivity.
      - change [0; 0; 0; 0] with (be_enc 4 0). rewrite read_be_app by (auto; lia). reflexivity. }
    rewrite FD. cbn [bind]. clear FD.
    do 4 (rewrite read_be_app by (auto; lia); cbn [or_eof bind]).
    rewrite (N.mod_small (lenN (p_data p))) by lia. rewrite read_be_app by (auto; lia). cbn [or_eof bind].
    replace (lenN (p_data p) <? lenN (p_data p)) with false by lia. rewrite takeN_all by lia. rewrite N.mod_small by lia. rewrite TB, M3.
    destruct p, i; reflexivity. }
  unfold from_flac_bytes, as_flac_bytes. fold body. destruct e; auto. rewrite b64_roundtrip by auto. auto.
Qed.
Print Assumptions C56_flac_picture.
Definition ex_pic := mkPic PCoverFront (Some Png) (Some [233; 97]) [1; 2; 3; 4; 5].
Example C56_ex : representable ex_pic /\ from_flac_bytes (as_flac_bytes ex_pic (mkInfo 640 480 24 0) true) true Strict = Ok (ex_pic, mkInfo 640 480 24 0).
Proof. split; [|vm_compute; reflexivity]. repeat split; try (vm_compute; (reflexivity || discriminate)); repeat constructor. Qed.
Example C56_ex_b64 : b64_encode ($"Man") = $"TWFu" /\ b64_encode ($"Ma") = $"TWE=" /\ b64_encode ($"M") = $"TQ==".
Proof. vm_compute. auto. Qed.
(** The restrictions are needed: an empty description, a number that has a name, and another spelling of a known MIME type
    do not come back. *)
Theorem C56_unrestricted_refuted : ~ (forall p i m, lenN (p_data p) < 2 ^ 32 -> info_ok i ->
  exists i', from_flac_bytes (as_flac_bytes p i false) false m = Ok (p, i')).
Proof.
  intro H. destruct (H (mkPic POther None (Some []) []) info_default Strict) as [i' E]. reflexivity. repeat split; vm_compute; reflexivity.
  vm_compute in E. discriminate.
Qed.
Print Assumptions C56_unrestricted_refuted.

(** C57 *)
Theorem C57_flac_picture_total : forall b e m, from_flac_bytes b e m <> Panic.
Proof.
  intros. unfold from_flac_bytes. destruct e. destruct (b64_decode b). apply flac_total. discriminate. apply flac_total.
Qed.
Print Assumptions C57_flac_picture_total.
Example C57_ex : from_flac_bytes (repeat 255 32) false Relaxed = Err PSize /\ from_flac_bytes (repeat 0 32) false Relaxed = Ok (mkPic POther None None [], info_default).
Proof. vm_compute. auto. Qed.

(** C58 *)
Lemma ape_desc_app : forall d r, Forall (fun b => b <> 0) d -> ape_desc (d ++ 0 :: r) = (d, r).
Proof.
  induction d as [|c d IH]; intros r F. reflexivity. apply Forall_cons_iff in F as [F1 F2]. cbn [app ape_desc].
  replace (c =? 0) with false by lia. rewrite IH by auto. reflexivity.
Qed.
Lemma utf8_ascii : forall s, Forall (fun c => c < 128) s -> utf8_enc s = s.
Proof. induction s as [|c s IH]; intros F. reflexivity. apply Forall_cons_iff in F as [F1 F2]. cbn [utf8_enc]. rewrite IH by auto. unfold utf8_char. replace (c <? 128) with true by lia. reflexivity. Qed.
Theorem C58_ape_picture_partial : forall p m key, pic_as_ape_key (p_type p) = Some key ->
  8 <= lenN (p_data p) -> mimetype_from_bin (takeN 8 (p_data p)) = Ok m -> p_mime p = Some m ->
  match p_desc p with Some d => d <> [] /\ Forall (fun c => 0 < c < 128) d | None => True end ->
  from_ape_bytes key (as_ape_bytes p) = Ok p.
Proof.
  intros p m key K L M PM D. unfold from_ape_bytes, as_ape_bytes.
  set (d := match p_desc p with Some d => utf8_enc d | None => [] end).
  assert (DE : Forall (fun b => b <> 0) d /\ match d with [] => None | _ => Some d end = p_desc p).
  { unfold d. destruct (p_desc p) as [x|]; [|split; constructor]. destruct D as [D1 D2]. rewrite utf8_ascii.
    split. eapply Forall_impl; [|exact D2]. cbn. lia. destruct x; congruence. eapply Forall_impl; [|exact D2]. cbn. lia. }
  destruct DE as [D1 D2]. cbn [app]. rewrite ape_desc_app by auto.
  destruct (d ++ 0 :: p_data p) eqn:X. { destruct d; discriminate. } clear X.
  unfold read_exact. replace (8 <=? lenN (p_data p)) with true by lia. cbn [or_eof bind]. rewrite M. cbn [bind].
  rewrite D2, <- PM. rewrite (ape_key_roundtrip _ _ K). destruct p; reflexivity.
Qed.
Print Assumptions C58_ape_picture_partial.
Definition bmp_pic (d : str) := mkPic PCoverFront (Some Bmp) (Some d) ($"BM123456").
Example C58_ex : from_ape_bytes ($"Cover Art (Front)") (as_ape_bytes (bmp_pic ($"cover.jpg"))) = Ok (bmp_pic ($"cover.jpg")).
Proof. vm_compute. reflexivity. Qed.
(** Finding: descriptions are written as UTF-8 and read as Latin-1. *)
Theorem C58_ape_description_refuted : ~ (forall d, str_ok d -> d <> [] -> Forall (fun c => c <> 0) d ->
  from_ape_bytes ($"Cover Art (Front)") (as_ape_bytes (bmp_pic d)) = Ok (bmp_pic d)).
Proof. intro H. specialize (H [233] ltac:(repeat constructor) ltac:(discriminate) ltac:(repeat constructor; discriminate)). vm_compute in H. discriminate. Qed.
Print Assumptions C58_ape_description_refuted.
Theorem C58_ape_read_total : forall key b, from_ape_bytes key b <> Panic.
Proof.
  intros key [|x b]. discriminate. unfold from_ape_bytes. destruct (ape_desc (x :: b)) as [d r].
  destruct (read_exact 8 r) as [[i r']|] eqn:E; [|discriminate]. cbn [or_eof bind]. apply read_exact_spec in E as [_ E].
  destruct i as [|i0 [|i1 [|i2 [|i3 [|i4 [|i5 [|i6 [|i7 i]]]]]]]]; try (vm_compute in E; discriminate).
  unfold mimetype_from_bin. repeat match goal with |- context [if ?b then _ else _] => destruct b end; discriminate.
Qed.
Print Assumptions C58_ape_read_total.

(** C59: PNG, as specified by the standard (signature, IHDR, chunks). *)
Definition png_chunk (ty data crc : bytes) : bytes := be_enc 4 (lenN data) ++ ty ++ data ++ crc.
Definition chunk_ok (c : bytes * bytes * bytes) := let '(ty, d, crc) := c in lenN ty = 4 /\ ty <> $"PLTE" /\ lenN d < 2 ^ 31 /\ lenN crc = 4.
Definition chunks (l : list (bytes * bytes * bytes)) : bytes := flat_map (fun c => let '(ty, d, crc) := c in png_chunk ty d crc) l.
Definition png_sig : bytes := [0x89; 80; 78; 71; 0x0D; 0x0A; 0x1A; 0x0A].
Definition png_file (w h depth ctype : N) (tail5 : bytes) : bytes :=
  png_sig ++ [0; 0; 0; 13] ++ $"IHDR" ++ be_enc 4 w ++ be_enc 4 h ++ [depth; ctype] ++ tail5.
(** Samples per pixel (PNG standard, table 11.1). *)
Definition channels (ctype : N) : N := match ctype with 0 => 1 | 2 => 3 | 3 => 1 | 4 => 2 | 6 => 4 | _ => 0 end.
Lemma png_head : forall w h depth ctype rest, w < 2 ^ 32 -> h < 2 ^ 32 -> ctype <> 3 ->
  info_from_png (png_file w h depth ctype rest) =
  Ok (mkInfo w h (if ctype =? 2 then depth * 3 else if (ctype =? 4) || (ctype =? 6) then depth * 4 else depth) 0).
Proof.
  intros. unfold info_from_png, png_file. rewrite read_exact_app by reflexivity. cbn [or_eof bind]. rewrite list_eqb_refl. cbn [negb].
  rewrite app_assoc. rewrite read_exact_app by reflexivity. cbn [or_eof bind]. change (dropN 4 ([0; 0; 0; 13] ++ $"IHDR")) with [0x49; 0x48; 0x44; 0x52].
  rewrite list_eqb_refl. cbn [negb]. do 2 (rewrite read_be_app by auto; cbn [or_eof bind]). cbn [app read_u8 or_eof bind].
  replace (ctype =? 3) with false by lia. reflexivity.
Qed.
Theorem C59_png_partial : forall w h depth ctype rest, w < 2 ^ 32 -> h < 2 ^ 32 -> ctype = 0 \/ ctype = 2 \/ ctype = 6 ->
  info_from_png (png_file w h depth ctype rest) = Ok (mkInfo w h (depth * channels ctype) 0).
Proof.
  intros w h depth ctype rest W H C. rewrite png_head by (auto; destruct C as [->|[->| ->]]; lia).
  destruct C as [->|[->| ->]]; cbn [channels].
  - change (0 =? 2) with false. cbn [N.eqb Pos.eqb orb]. now rewrite N.mul_1_r.
  - reflexivity.
  - reflexivity.
Qed.
Print Assumptions C59_png_partial.
Lemma png_chunks_skip : forall l fuel rest, Forall chunk_ok l -> (length l <= fuel)%nat ->
  png_chunks fuel (chunks l ++ rest) = png_chunks (fuel - length l) rest.
Proof.
  induction l as [|[[ty d] crc] l IH]; intros fuel rest F L. { cbn [chunks flat_map app length]. f_equal. lia. }
  apply Forall_cons_iff in F as [(F1 & F2 & F3 & F4) F]. destruct fuel as [|fuel]. cbn in L. lia.
  cbn [chunks flat_map]. fold (chunks l). unfold png_chunk. rewrite <- !app_assoc. cbn [png_chunks].
  change (2 ^ 31) with 2147483648 in F3. rewrite read_be_app by (auto; lia). rewrite read_exact_app by auto.
  replace (list_eqb ty $"PLTE") with false by (symmetry; apply list_eqb_neq; auto). unfold U32_MAX. replace (4294967295 <? lenN d + 4) with false by lia.
  rewrite app_assoc. rewrite dropN_app by (rewrite lenN_app; lia). rewrite IH by (auto; cbn in L; lia). f_equal.
Qed.
Theorem C59_png_palette : forall w h depth tail7 l entries rest, w < 2 ^ 32 -> h < 2 ^ 32 -> lenN tail7 = 7 ->
  Forall chunk_ok l -> entries < 2 ^ 30 ->
  info_from_png (png_file w h depth 3 (tail7 ++ chunks l ++ be_enc 4 (3 * entries) ++ $"PLTE" ++ rest)) = Ok (mkInfo w h depth entries).
Proof.
  intros w h depth tail7 l entries rest W H T F E. unfold info_from_png, png_file. rewrite read_exact_app by reflexivity. cbn [or_eof bind]. rewrite list_eqb_refl. cbn [negb].
  rewrite app_assoc. rewrite read_exact_app by reflexivity. cbn [or_eof bind]. change (dropN 4 ([0; 0; 0; 13] ++ $"IHDR")) with [0x49; 0x48; 0x44; 0x52].
  rewrite list_eqb_refl. cbn [negb]. do 2 (rewrite read_be_app by auto; cbn [or_eof bind]). cbn [app read_u8 or_eof bind].
  change (3 =? 3) with true. change (3 =? 2) with false. change ((3 =? 4) || (3 =? 6)) with false. cbn [negb]. cbn iota zeta. rewrite dropN_app by auto.
  assert (LC : (8 * length l <= length (chunks l))%nat).
  { clear -F. induction l as [|[[ty d] crc] l IH]. cbn; lia. apply Forall_cons_iff in F as [(F1 & _ & _ & F4) F]. cbn [chunks flat_map]. fold (chunks l).
    unfold png_chunk. rewrite !app_length. specialize (IH F). unfold lenN in *. cbn [length]. lia. }
  rewrite png_chunks_skip by (auto; rewrite app_length; lia).
  destruct (length (chunks l ++ be_enc 4 (3 * entries) ++ $"PLTE" ++ rest) - length l)%nat eqn:X.
  { rewrite !app_length in X. cbn [length] in X. cbn in X. lia. }
  cbn [png_chunks]. change (2 ^ 30) with 1073741824 in E. rewrite read_be_app by (auto; change (256 ^ 4) with 4294967296; lia). rewrite read_exact_app by reflexivity.
  rewrite list_eqb_refl. rewrite N.mul_comm, N.div_mul by lia. reflexivity.
Qed.
Print Assumptions C59_png_palette.
(** Finding: grey with alpha (colour type 4) has two samples per pixel, four are counted. *)
Theorem C59_png_grey_alpha_refuted : ~ (forall w h depth rest, w < 2 ^ 32 -> h < 2 ^ 32 ->
  info_from_png (png_file w h depth 4 rest) = Ok (mkInfo w h (depth * channels 4) 0)).
Proof. intro H. specialize (H 1 1 8 [] eq_refl eq_refl). vm_compute in H. discriminate. Qed.
Print Assumptions C59_png_grey_alpha_refuted.
Example C59_ex : info_from_png (png_file 640 480 8 2 []) = Ok (mkInfo 640 480 24 0) /\
  info_from_png (png_file 16 16 8 3 ([0;0;0;9;9;9;9] ++ chunks [($"gAMA", [1;2;3;4], [0;0;0;0])] ++ be_enc 4 6 ++ $"PLTE")) = Ok (mkInfo 16 16 8 2).
Proof. vm_compute. auto. Qed.

(** C60: JPEG. A segment is FF, marker, length (including itself), content. *)
Definition segment_bytes (s : N * bytes) : bytes := 255 :: fst s :: be_enc 2 (lenN (snd s) + 2) ++ snd s.
Definition seg_ok (s : N * bytes) := fst s <> 0xDA /\ fst s <> 0xC0 /\ fst s <> 0xC2 /\ lenN (snd s) + 2 < 65536.
Definition sof (marker precision h w comps : N) (rest : bytes) : bytes :=
  255 :: marker :: be_enc 2 (8 + 3 * comps) ++ precision :: be_enc 2 h ++ be_enc 2 w ++ comps :: rest.
Lemma jpeg_skip : forall l fuel rest, Forall seg_ok l -> (length l <= fuel)%nat ->
  jpeg_segments fuel (flat_map segment_bytes l ++ rest) = jpeg_segments (fuel - length l) rest.
Proof.
  induction l as [|[mk d] l IH]; intros fuel rest F L. { cbn [flat_map app length]. f_equal. lia. }
  apply Forall_cons_iff in F as [(F1 & F2 & F3 & F4) F]. cbn [fst snd] in *. destruct fuel as [|fuel]. cbn in L. lia.
  cbn [flat_map]. unfold segment_bytes at 1. cbn [fst snd]. rewrite <- app_assoc. cbn [app jpeg_segments read_u8 or_eof bind].
  rewrite <- app_assoc. rewrite read_be_app by (auto; lia). cbn [or_eof bind].
  replace (mk =? 0xDA) with false by lia. replace ((mk =? 0xC0) || (mk =? 0xC2)) with false by lia. replace (lenN d + 2 <? 2) with false by lia.
  replace (lenN d + 2 - 2) with (lenN d) by lia. rewrite dropN_app by auto. rewrite IH by (auto; cbn in L; lia). reflexivity.
Qed.
Theorem C60_jpeg_partial : forall mk d l marker precision h w comps rest, lenN d + 2 < 65536 -> Forall seg_ok l ->
  marker = 0xC0 \/ marker = 0xC2 -> h < 65536 -> w < 65536 -> comps <= 4 -> precision <= 16 ->
  info_from_jpeg ([255; 0xD8] ++ segment_bytes (mk, d) ++ flat_map segment_bytes l ++ sof marker precision h w comps rest) =
  Ok (mkInfo w h (precision * comps) 0).
Proof.
  intros mk d l marker precision h w comps rest D F M H W C P. unfold info_from_jpeg, segment_bytes at 1. cbn [fst snd app].
  change (255 :: 0xD8 :: 255 :: mk :: ?r) with ([255; 0xD8; 255; mk] ++ r). rewrite <- app_assoc.
  rewrite read_exact_app by reflexivity. cbn [or_eof bind]. change (list_eqb (takeN 3 [255; 0xD8; 255; mk]) [0xFF; 0xD8; 0xFF]) with true. cbn [negb].
  rewrite read_be_app by (auto; lia). cbn [or_eof bind]. replace (lenN d + 2 <? 2) with false by lia. replace (lenN d + 2 - 2) with (lenN d) by lia. cbn zeta.
  rewrite dropN_app by auto.
  assert (LL : (length l <= length (flat_map segment_bytes l))%nat).
  { clear. induction l as [|s l IH]. cbn; lia. cbn [flat_map]. rewrite app_length. unfold segment_bytes at 1. cbn [length]. lia. }
  rewrite jpeg_skip by (auto; rewrite app_length; lia).
  destruct (S (length (flat_map segment_bytes l ++ sof marker precision h w comps rest)) - length l)%nat eqn:X. { rewrite app_length in X. lia. }
  unfold sof. cbn [jpeg_segments read_u8 or_eof bind]. rewrite read_be_app by (auto; lia). cbn [or_eof bind].
  replace (marker =? 0xDA) with false by lia. replace ((marker =? 0xC0) || (marker =? 0xC2)) with true by lia. cbn [read_u8 or_eof bind].
  do 2 (rewrite read_be_app by auto; cbn [or_eof bind]). cbn [read_u8 or_eof bind].
  assert (precision * comps <= 16 * 4) by (apply N.mul_le_mono; auto). replace (255 <? precision * comps) with false by lia. reflexivity.
Qed.
Print Assumptions C60_jpeg_partial.
Example C60_ex : info_from_jpeg ([255; 0xD8] ++ segment_bytes (0xE0, $"JFIF") ++ flat_map segment_bytes [(0xDB, [1; 2; 3])] ++ sof 0xC0 8 480 640 3 []) = Ok (mkInfo 640 480 24 0).
Proof. vm_compute. reflexivity. Qed.
(** Findings: both arithmetic operations can overflow on malformed files. *)
Theorem C60_jpeg_total_refuted : (exists data, info_from_picture (mkPic POther None None data) = Panic /\ lenN data = 18) /\
  (exists data, info_from_picture (mkPic POther None None data) = Panic /\ nth 8 data 0 = 0xC0).
Proof.
  split.
  - exists ([255; 0xD8; 255; 0xE0; 0; 2; 255; 0xE1; 0; 1] ++ repeat 0 8). vm_compute. auto.
  - exists ([255; 0xD8; 255; 0xE0; 0; 2] ++ 0xFF :: 0xC0 :: [0xC0; 11; 8; 0; 1; 0; 1; 32]). vm_compute. auto.
Qed.
Print Assumptions C60_jpeg_total_refuted.

(** C61 *)
Theorem C61_picture_types : (forall b, pic_as_u8 (pic_from_u8 b) = b) /\
  (forall p, (forall n, p = PUndefined n -> 20 < n) -> pic_from_u8 (pic_as_u8 p) = p) /\
  (forall p k, pic_as_ape_key p = Some k -> pic_from_ape_key k = p) /\
  (forall s, (forall p, pic_as_ape_key p <> Some s) -> pic_from_ape_key s = PUndefined 0).
Proof.
  repeat split. exact as_from_u8. exact from_as_u8. exact ape_key_roundtrip.
  intros s H. unfold pic_from_ape_key. destruct (find _ named_types) as [p|] eqn:E; auto. apply find_some in E as [_ E].
  specialize (H p). destruct (pic_as_ape_key p) as [k|]; [|discriminate]. apply list_eqb_eq in E. subst. congruence.
Qed.
Print Assumptions C61_picture_types.
Example C61_ex : pic_from_ape_key ($"Cover Art (Icon)") = POtherIcon /\ pic_from_ape_key ($"Cover Art (front)") = PUndefined 0 /\ pic_from_u8 21 = PUndefined 21.
Proof. vm_compute. auto. Qed.

(** C62: sniffing the image format of a file. *)
Theorem C62_sniff : forall data, 
  match pic_from_reader data with
  | Ok p => p_data p = data /\ p_type p = POther /\ p_desc p = None /\ exists m, p_mime p = Some m /\
      ((m = Png /\ exists r, data = png_sig ++ r) \/ (m = Jpeg /\ exists r, data = 0xFF :: 0xD8 :: r) \/
       (m = Gif /\ exists r, data = $"GIF87a" ++ r \/ data = $"GIF89a" ++ r) \/ (m = Bmp /\ exists r, data = $"BM" ++ r) \/
       (m = Tiff /\ exists r, data = [73; 73; 42; 0] ++ r \/ data = [77; 77; 0; 42] ++ r))
  | Err e => e = PNotEnough /\ lenN data < 8 \/ e = PUnknownFormat
  | Panic => False
  end.
Proof.
  intros. unfold pic_from_reader. destruct (lenN data <? 8) eqn:E. { left. split; auto. lia. }
  destruct data as [|b0 [|b1 [|b2 [|b3 [|b4 [|b5 [|b6 [|b7 r]]]]]]]]; try (vm_compute in E; discriminate).
  change (takeN 8 (b0 :: b1 :: b2 :: b3 :: b4 :: b5 :: b6 :: b7 :: r)) with [b0; b1; b2; b3; b4; b5; b6; b7]. unfold mimetype_from_bin.
  destruct (list_eqb _ [0x89; _; _; _; _; _; _; _]) eqn:P.
  { apply list_eqb_eq in P. injection P as -> -> -> -> -> -> -> ->. cbn [bind p_data p_type p_desc p_mime]. repeat split. eexists. split; [reflexivity|]. left. split; auto. exists r. reflexivity. }
  destruct (list_eqb [b0; b1] [0xFF; _]) eqn:J.
  { apply list_eqb_eq in J. injection J as -> ->. cbn [bind p_data p_type p_desc p_mime]. repeat split. eexists. split; [reflexivity|]. right. left. split; auto. eauto. }
  destruct (list_eqb [b0; b1; b2; b3; b5] _ && _) eqn:G.
  { apply andb_prop in G as [G1 G2]. apply list_eqb_eq in G1. injection G1 as -> -> -> -> ->. cbn [bind p_data p_type p_desc p_mime]. repeat split. eexists. split; [reflexivity|]. right. right. left. split; auto.
    exists (b6 :: b7 :: r). apply orb_prop in G2 as [G2|G2]; apply N.eqb_eq in G2; subst; auto. }
  destruct (list_eqb [b0; b1] [66; _]) eqn:B.
  { apply list_eqb_eq in B. injection B as -> ->. cbn [bind p_data p_type p_desc p_mime]. repeat split. eexists. split; [reflexivity|]. right. right. right. left. split; auto. eexists. reflexivity. }
  destruct (list_eqb [b0; b1; b2; b3] [73; _; _; _] || _) eqn:T.
  { cbn [bind p_data p_type p_desc p_mime]. repeat split. eexists. split; [reflexivity|]. right. right. right. right. split; auto. eexists. apply orb_prop in T as [T|T]; apply list_eqb_eq in T; injection T as -> -> -> ->; [left|right]; reflexivity. }
  right. reflexivity.
Qed.
Print Assumptions C62_sniff.
Example C62_ex : pic_from_reader ($"GIF89a.." ) = Ok (mkPic POther (Some Gif) None ($"GIF89a..")).
Proof. vm_compute. reflexivity. Qed.
Theorem C59_png_total : forall data, info_from_png data <> Panic.
Proof.
  intros. unfold info_from_png, or_eof.
  repeat (match goal with
  | |- context [if ?b then _ else _] => destruct b
  | |- context [match read_be ?n ?r with _ => _ end] => destruct (read_be n r) as [[? ?]|]; cbn [bind]
  | |- context [match read_exact ?n ?r with _ => _ end] => destruct (read_exact n r) as [[? ?]|]; cbn [bind]
  | |- context [match read_u8 ?r with _ => _ end] => destruct (read_u8 r) as [[? ?]|]; cbn [bind]
  end; try discriminate).
Qed.
Print Assumptions C59_png_total.
