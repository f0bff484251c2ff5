(** Property theorems for the ID3v2 header, restrictions and tag searches (C32-C35, C51-C54). *)
From Verif Require Import BaseLemmas StrLemmas SynchProof TextProof Id3v2HeaderModel Id3v2HeaderProof.

(** C32 *)
Theorem C32_restrictions : (forall r, restr_from_byte (restr_as_byte r) = r /\ restr_as_byte r < 256) /\
  (forall b, b < 256 -> restr_as_byte (restr_from_byte b) = b).
Proof. split. exact byte_restr. exact restr_byte. Qed.
Print Assumptions C32_restrictions.
Example C32_ex : restr_from_byte 0xB5 = mkRestr S_32F_40K true (Some C_128) true (Some P_256) /\ restr_as_byte (mkRestr S_32F_40K true (Some C_128) true (Some P_256)) = 0xB5.
Proof. vm_compute. auto. Qed.

(** C33 *)
Theorem C33_v24_flags : forall f minor n rest, n < 2 ^ 32 ->
  header_parse (hdr_bytes 4 minor (as_id3v24_byte f) n ++ rest) =
  (Ok (mkHdr V4 (mkTFlags (tf_unsync f) (tf_experimental f) (tf_footer f) false None) (unsynch32 n) 0), rest).
Proof.
  intros. rewrite parse_hdr by auto. destruct f as [[] [] [] c r]; reflexivity.
Qed.
Print Assumptions C33_v24_flags.
Theorem C33_v23_flags_partial : forall f minor n rest, n < 2 ^ 32 -> tf_experimental f = false ->
  header_parse (hdr_bytes 3 minor (as_id3v23_byte f) n ++ rest) =
  (Ok (mkHdr V3 (mkTFlags false false (tf_footer f) false None) (unsynch32 n) 0), rest).
Proof.
  intros. rewrite parse_hdr by auto. destruct f as [[] [] [] c r]; try discriminate; reflexivity.
Qed.
Print Assumptions C33_v23_flags_partial.
Definition plain_flags := mkTFlags false true false false None.
(** Finding: in ID3v2.3 the experimental flag is written on the extended header bit. Reading such a tag back then
    takes the first frame for an extended header. *)
Theorem C33_v23_experimental_refuted :
  ~ (forall f n rest, n < 2 ^ 32 -> exists h r, header_parse (hdr_bytes 3 0 (as_id3v23_byte f) n ++ rest) = (Ok h, r) /\
       tf_experimental (h_flags h) = tf_experimental f).
Proof.
  intro H. destruct (H plain_flags 20 ($"TIT2" ++ [0; 0; 0; 2; 0; 0; 3; 65])) as (h & r & E & X). reflexivity.
  vm_compute in E. discriminate.
Qed.
Print Assumptions C33_v23_experimental_refuted.
Example C33_ex : as_id3v24_byte plain_flags = 0x20 /\ as_id3v23_byte plain_flags = 0x40 /\
  fst (header_parse (hdr_bytes 3 0 0x40 20 ++ $"TIT2" ++ [0; 0; 0; 2; 0; 0; 3; 65])) = Err HBadExtendedSize.
Proof. vm_compute. auto. Qed.

(** C34 *)
Theorem C34_sizes : forall r,
  match fst (header_parse r) with
  | Ok h => h_size h < 2 ^ 28 /\ (h_ext_size h = 0 \/ h_ext_size h < h_size h) /\
            exists n, full_tag_size h = Ok n /\ n <= 2 ^ 30
  | Err _ => True
  | Panic => False
  end.
Proof.
  intros. pose proof (header_total r) as T. destruct (fst (header_parse r)) as [h| |]; auto. destruct T as [A B].
  repeat split; auto. unfold full_tag_size, U32_MAX. change (2 ^ 28) with 268435456 in A. change (2 ^ 30) with 1073741824.
  remember (h_size h + 10 + h_ext_size h + (if tf_footer (h_flags h) then 10 else 0)) as s.
  assert (s <= 1073741824) by (destruct (tf_footer (h_flags h)); lia).
  replace (4294967295 <? s) with false by lia. eauto.
Qed.
Print Assumptions C34_sizes.
Example C34_ex : fst (header_parse (hdr_bytes 4 0 0x50 0x7F7F7F7F ++ [0x7F; 0x7F; 0x7F; 0x7E; 1; 0])) =
  Ok (mkHdr V4 (mkTFlags false false true false None) 268435455 268435454).
Proof. vm_compute. reflexivity. Qed.

(** C35 *)
Theorem C35_never_recognised : forall data pos, pos <= lenN data ->
  match find_lyrics3v2 data pos with
  | Ok (found, size, p) => found = false /\ size = 0 /\ p = pos
  | Err _ => pos < 15
  | Panic => False
  end.
Proof.
  intros. unfold find_lyrics3v2, seek_back. destruct (pos <? 15) eqn:E. lia.
  unfold read_exact. rewrite lenN_dropN. replace (15 <=? lenN data - (pos - 15)) with true by lia.
  remember (takeN 15 (dropN (pos - 15) data)) as b.
  assert (L : lenN (dropN 7 b) <= 8). { rewrite lenN_dropN. subst b. rewrite lenN_takeN. lia. }
  assert (F : list_eqb (dropN 7 b) $"LYRICS200" = false).
  { apply list_eqb_neq. intro X. rewrite X in L. vm_compute in L. congruence. }
  rewrite F. auto.
Qed.
Print Assumptions C35_never_recognised.
Definition lyrics_file : bytes := $"LYRICSBEGININD0000200" ++ $"000021" ++ $"LYRICS200".
Theorem C35_recognised_refuted : ~ (forall pre body n, n <= 999999 -> lenN body = n ->
  find_lyrics3v2 (pre ++ body ++ takeN (6 - lenN (to_dec n)) ($"000000") ++ to_dec n ++ $"LYRICS200") (lenN (pre ++ body ++ takeN (6 - lenN (to_dec n)) ($"000000") ++ to_dec n ++ $"LYRICS200"))
  = Ok (true, n, lenN pre)).
Proof. intro H. specialize (H [] ($"LYRICSBEGININD0000200") 21 ltac:(lia) eq_refl). vm_compute in H. discriminate. Qed.
Print Assumptions C35_recognised_refuted.
Example C35_ex : find_lyrics3v2 lyrics_file (lenN lyrics_file) = Ok (false, 0, 36).
Proof. vm_compute. reflexivity. Qed.

(** C51: where the search leaves the stream. [tag_len] is the length of the whole tag according to the ID3v2 standard:
    the size field counts everything after the header except the footer. *)
Definition tag_len (size : N) (footer : bool) : N := 10 + size + (if footer then 10 else 0).
Theorem C51_end_of_tag_partial : forall pre major minor flags n rest read,
  n < 2 ^ 32 -> (major = 2 /\ flag flags 0x40 = false \/ (major = 3 \/ major = 4) /\ flag flags 0x40 = false) ->
  unsynch32 n <= lenN rest ->
  exists h t, find_id3v2 (pre ++ hdr_bytes major minor flags n ++ rest) (lenN pre) read None =
    Ok (Some h, t, lenN pre + tag_len (unsynch32 n) (negb (major =? 2) && flag flags 0x10)) /\
    (read = true -> t = Some (takeN (unsynch32 n) rest)) /\ h_size h = unsynch32 n.
Proof.
  intros pre major minor flags n rest read Hn Hm Hl. unfold find_id3v2. rewrite dropN_app by reflexivity.
  rewrite parse_hdr by auto.
  assert (Hf : flag flags 0x40 = false) by tauto.
  assert (LH : lenN (hdr_bytes major minor flags n) = 10) by (unfold hdr_bytes; rewrite !lenN_app, be_enc_len; reflexivity).
  assert (V : exists v, (if major =? 2 then Some V2 else if major =? 3 then Some V3 else if major =? 4 then Some V4 else None) = Some v /\ negb (is_v2 v) = negb (major =? 2)).
  { destruct Hm as [[-> _]|[[-> | ->] _]]; eexists; split; reflexivity. }
  destruct V as (v & -> & V2'). rewrite Hf, !andb_false_r, V2'. unfold header_ext. cbn zeta.
  change ((0 <? 0) && _) with false. cbn iota. cbn [h_size h_flags tf_footer].
  rewrite !lenN_app, LH. replace (lenN pre + (10 + lenN rest) - lenN rest) with (lenN pre + 10) by lia.
  unfold read_exact. replace (unsynch32 n <=? lenN rest) with true by lia. unfold tag_len.
  assert (P : forall b : bool, lenN pre + (10 + unsynch32 n + (if b then 10 else 0)) =
    if b then lenN pre + 10 + unsynch32 n + 10 else lenN pre + 10 + unsynch32 n) by (intros []; lia).
  rewrite P. destruct read; cbn [bind].
  - eexists _, _. split; [reflexivity|]. split; auto.
  - eexists _, _. split; [reflexivity|]. split; [discriminate|auto].
Qed.
Print Assumptions C51_end_of_tag_partial.
(** Finding: with an extended header the stream is left past the end of the tag. *)
Definition ext_tag : bytes := hdr_bytes 4 0 0x40 17 ++ [0; 0; 0; 6; 1; 0] ++ $"TIT2" ++ [0; 0; 0; 1; 0; 0; 65].
Theorem C51_end_of_tag_refuted : exists audio h t p, find_id3v2 (ext_tag ++ audio) 0 false None = Ok (Some h, t, p) /\
  lenN ext_tag = tag_len 17 false /\ lenN ext_tag < p.
Proof. exists (repeat 0 20). eexists _, _, _. split. vm_compute. reflexivity. split; vm_compute; reflexivity. Qed.
Print Assumptions C51_end_of_tag_refuted.
Theorem C51_full_tag_size_refuted : exists h, fst (header_parse ext_tag) = Ok h /\ full_tag_size h <> Ok (lenN ext_tag).
Proof. eexists. split. vm_compute. reflexivity. vm_compute. discriminate. Qed.
Print Assumptions C51_full_tag_size_refuted.
Theorem C51_full_tag_size_partial : forall r h, fst (header_parse r) = Ok h -> h_ext_size h = 0 ->
  full_tag_size h = Ok (tag_len (h_size h) (tf_footer (h_flags h))).
Proof.
  intros. pose proof (header_total r) as T. rewrite H in T. destruct T as [A _]. unfold full_tag_size, tag_len.
  change (2 ^ 28) with 268435456 in A. rewrite H0. unfold U32_MAX.
  remember (h_size h + 10 + 0 + (if tf_footer (h_flags h) then 10 else 0)) as s.
  assert (s < 300000000) by (destruct (tf_footer (h_flags h)); lia).
  replace (4294967295 <? s) with false by lia. f_equal. lia.
Qed.
Print Assumptions C51_full_tag_size_partial.
Example C51_ex : tag_len 17 false = 27 /\ (exists h t, find_id3v2 (hdr_bytes 4 0 0x10 11 ++ repeat 0 30) 0 true None = Ok (Some h, t, 31)).
Proof. split. reflexivity. eexists _, _. vm_compute. reflexivity. Qed.

(** C52: the extended header of ID3v2.4 (standard, section 3.2), as a specification: size, number of flag bytes, flags,
    then the data of each flag. *)
Definition ext24 (update crc : bool) (crcdata : bytes) (restr : option N) : bytes :=
  let body := (if update then [0] else []) ++ (if crc then 5 :: crcdata else []) ++ (match restr with Some b => [1; b] | None => [] end) in
  be_enc 4 (6 + lenN body) ++
  [1; (if update then 0x40 else 0) + (if crc then 0x20 else 0) + (match restr with Some _ => 0x10 | None => 0 end)] ++ body.
Theorem C52_ext24_partial : forall crc crcdata restr n frames minor,
  lenN crcdata = 5 -> n < 2 ^ 32 -> lenN (ext24 false crc crcdata restr) < unsynch32 n ->
  header_parse (hdr_bytes 4 minor 0x40 n ++ ext24 false crc crcdata restr ++ frames) =
  (Ok (mkHdr V4 (mkTFlags false false false crc (match restr with Some b => Some (restr_from_byte b) | None => None end))
        (unsynch32 n) (lenN (ext24 false crc crcdata restr))), frames).
Proof.
  intros crc crcdata restr n frames minor Hc Hn Hl. rewrite parse_hdr by auto. change (if 4 =? 2 then Some V2 else if 4 =? 3 then Some V3 else if 4 =? 4 then Some V4 else None) with (Some V4). cbn iota.
  change (is_v2 V4) with false. change (flag 0x40 0x40) with true. change (flag 0x40 0x80) with false. change (flag 0x40 0x20) with false. change (flag 0x40 0x10) with false.
  cbn [negb andb]. unfold header_ext. cbn zeta.
  destruct crc, restr as [b|]; unfold ext24 in *; cbn [app] in *.
  - assert (L : lenN (5 :: crcdata ++ [1; b]) = 8) by (rewrite lenN_cons, lenN_app, Hc; reflexivity). rewrite L in *.
    rewrite lenN_app, be_enc_len, !lenN_cons, lenN_app, Hc in *. change (lenN [1; b]) with 2 in *.
    rewrite <- app_assoc. rewrite read_be_app by reflexivity. change (unsynch32 (6 + 8)) with 14. unfold read_extended_header.
    change (14 <? 6) with false. cbn [app read_u8]. change (flag (0 + 32 + 16) 32) with true. change (flag (0 + 32 + 16) 16) with true. cbn iota.
    replace (5 :: (crcdata ++ [1; b]) ++ frames) with ((5 :: crcdata) ++ 1 :: b :: frames) by (cbn [app]; rewrite <- app_assoc; reflexivity).
    rewrite read_exact_app by (rewrite lenN_cons, Hc; reflexivity). cbn [read_u8 fst snd tf_unsync tf_experimental tf_footer tf_crc].
    change (N.of_nat 4 + (1 + (1 + (1 + (5 + 2))))) with 14 in *. replace ((0 <? 14) && (unsynch32 n <=? 14)) with false by lia. reflexivity.
  - rewrite app_nil_r in *. assert (L : lenN (5 :: crcdata) = 6) by (rewrite lenN_cons, Hc; reflexivity). rewrite L in *.
    rewrite lenN_app, be_enc_len, !lenN_cons, Hc in *.
    rewrite <- app_assoc. rewrite read_be_app by reflexivity. change (unsynch32 (6 + 6)) with 12. unfold read_extended_header.
    change (12 <? 6) with false. cbn [app read_u8]. change (flag (0 + 32 + 0) 32) with true. change (flag (0 + 32 + 0) 16) with false. cbn iota.
    change (5 :: crcdata ++ frames) with ((5 :: crcdata) ++ frames).
    rewrite read_exact_app by (rewrite lenN_cons, Hc; reflexivity). cbn iota.
    change (N.of_nat 4 + (1 + (1 + (1 + 5)))) with 12 in *. replace ((0 <? 12) && (unsynch32 n <=? 12)) with false by lia. reflexivity.
  - change (lenN [1; b]) with 2 in *. rewrite lenN_app, be_enc_len, !lenN_cons in *. change (lenN (@nil N)) with 0 in *.
    rewrite <- app_assoc. rewrite read_be_app by reflexivity. change (unsynch32 (6 + 2)) with 8. unfold read_extended_header.
    change (8 <? 6) with false. cbn [app read_u8]. change (flag (0 + 0 + 16) 32) with false. change (flag (0 + 0 + 16) 16) with true. cbn [read_u8 fst snd tf_unsync tf_experimental tf_footer tf_crc].
    change (N.of_nat 4 + (1 + (1 + (1 + (1 + 0))))) with 8 in *. replace ((0 <? 8) && (unsynch32 n <=? 8)) with false by lia. reflexivity.
  - change (lenN (@nil N)) with 0 in *. rewrite lenN_app, be_enc_len, !lenN_cons in *. change (lenN (@nil N)) with 0 in *.
    rewrite <- app_assoc. rewrite read_be_app by reflexivity. change (unsynch32 (6 + 0)) with 6. unfold read_extended_header.
    change (6 <? 6) with false. cbn [app read_u8]. change (flag (0 + 0 + 0) 32) with false. change (flag (0 + 0 + 0) 16) with false. cbn iota.
    change (N.of_nat 4 + (1 + (1 + 0))) with 6 in *. replace ((0 <? 6) && (unsynch32 n <=? 6)) with false by lia. reflexivity.
Qed.
Print Assumptions C52_ext24_partial.
Example C52_ex : ext24 false true [1; 2; 3; 4; 5] (Some 0xB5) = [0; 0; 0; 14; 1; 0x30; 5; 1; 2; 3; 4; 5; 1; 0xB5] /\
  header_parse (hdr_bytes 4 0 0x40 0x7F ++ ext24 false false [] (Some 3) ++ $"TIT2") =
  (Ok (mkHdr V4 (mkTFlags false false false false (Some (mkRestr S_128F_1M false None false (Some P_64_64)))) 127 8), $"TIT2").
Proof. vm_compute. auto. Qed.
(** Finding: the "tag is an update" flag has a data length byte that is not skipped. *)
Theorem C52_update_flag_refuted : exists frames h r,
  header_parse (hdr_bytes 4 0 0x40 0x7F ++ ext24 true false [] None ++ frames) = (Ok h, r) /\ r <> frames.
Proof. exists ($"TIT2"). eexists _, _. split. vm_compute. reflexivity. discriminate. Qed.
Print Assumptions C52_update_flag_refuted.
(** ID3v2.3's extended header (standard, section 3.2): size without itself, two flag bytes, size of padding, CRC. *)
Definition ext23 (padding : N) (crc : option N) : bytes :=
  be_enc 4 (match crc with Some _ => 10 | None => 6 end) ++ [match crc with Some _ => 0x80 | None => 0 end; 0] ++ be_enc 4 padding ++
  match crc with Some c => be_enc 4 c | None => [] end.
(** Finding: the padding size (and the CRC) are never skipped, so that no ID3v2.3 tag with an extended header leaves
    the reader at its first frame. *)
Theorem C52_ext23_never : forall padding crc n frames minor, padding < 2 ^ 32 -> n < 2 ^ 32 -> 10 < unsynch32 n ->
  exists h rest, header_parse (hdr_bytes 3 minor 0x40 n ++ ext23 padding crc ++ frames) = (Ok h, rest) /\
    rest = be_enc 4 padding ++ (match crc with Some c => be_enc 4 c | None => [] end) ++ frames /\ rest <> frames.
Proof.
  intros padding crc n frames minor Hp Hn Hu. rewrite parse_hdr by auto. change (if 3 =? 2 then Some V2 else if 3 =? 3 then Some V3 else if 3 =? 4 then Some V4 else None) with (Some V3). cbn iota.
  change (is_v2 V3) with false. change (flag 0x40 0x40) with true. change (flag 0x40 0x80) with false. change (flag 0x40 0x20) with false. change (flag 0x40 0x10) with false.
  cbn [negb andb]. unfold header_ext. cbn [tf_unsync]. unfold ext23. rewrite <- !app_assoc. rewrite read_be_app.
  2: reflexivity. 2: { destruct crc; reflexivity. }
  unfold read_extended_header. replace (match crc with Some _ => 10 | None => 6 end <? 6) with false by (destruct crc; reflexivity).
  cbn [app read_u8]. change (flag 0 0x20) with false. change (flag 0 0x10) with false. cbn iota.
  replace ((0 <? match crc with Some _ => 10 | None => 6 end) && (unsynch32 n <=? match crc with Some _ => 10 | None => 6 end)) with false by (destruct crc; lia).
  eexists _, _. split; [reflexivity|]. split; [reflexivity|]. intro X. apply (f_equal lenN) in X.
  rewrite !lenN_app, be_enc_len in X. lia.
Qed.
Print Assumptions C52_ext23_never.
Example C52_ex23 : ext23 9 None = [0; 0; 0; 6; 0; 0; 0; 0; 0; 9].
Proof. reflexivity. Qed.
(** Finding: with unsynchronisation the stream adapter swallows up to 8192 bytes of the tag. *)
Theorem C52_ext23_unsync_refuted : forall minor n frames padding, padding < 2 ^ 8 -> n < 2 ^ 32 -> 10 < unsynch32 n -> lenN frames <= 8182 ->
  exists h, header_parse (hdr_bytes 3 minor 0xC0 n ++ ext23 padding None ++ frames) = (Ok h, []).
Proof.
  intros minor n frames padding Hp Hn Hu L. rewrite parse_hdr by auto. change (if 3 =? 2 then Some V2 else if 3 =? 3 then Some V3 else if 3 =? 4 then Some V4 else None) with (Some V3). cbn iota.
  change (is_v2 V3) with false. change (flag 0xC0 0x40) with true. change (flag 0xC0 0x80) with true. change (flag 0xC0 0x20) with false. change (flag 0xC0 0x10) with false.
  cbn [negb andb]. unfold header_ext. cbn [tf_unsync]. cbn zeta.
  assert (D : dropN BUF_SIZE (ext23 padding None ++ frames) = []).
  { apply dropN_all. rewrite lenN_app. change (lenN (ext23 padding None)) with 10. unfold BUF_SIZE. lia. }
  rewrite D. unfold ext23. change (be_enc 4 6) with [0; 0; 0; 6]. cbn [app].
  assert (R : exists u, resynchronise (0 :: 0 :: 0 :: 6 :: 0 :: 0 :: (be_enc 4 padding ++ []) ++ frames) = [0; 0; 0; 6] ++ 0 :: 0 :: u).
  { change (be_enc 4 padding) with [padding / 256 / 256 / 256 mod 256; padding / 256 / 256 mod 256; padding / 256 mod 256; padding mod 256].
    cbn [app]. cbn [resynchronise]. change ((0 =? 255) && (0 =? 0)) with false. change ((0 =? 255) && (6 =? 0)) with false. change ((6 =? 255) && (0 =? 0)) with false.
    change (0 =? 255) with false. cbn [andb]. eexists. reflexivity. }
  destruct R as [u R]. rewrite R. change [0; 0; 0; 6] with (be_enc 4 6). rewrite read_be_app by reflexivity.
  unfold read_extended_header. change (6 <? 6) with false. cbn [read_u8]. change (flag 0 0x20) with false. change (flag 0 0x10) with false. cbn iota.
  replace ((0 <? 6) && (unsynch32 n <=? 6)) with false by lia. eauto.
Qed.
Print Assumptions C52_ext23_unsync_refuted.

(** C53: "otherwise, the position will be unchanged" (documentation of find_id3v2). *)
Theorem C53_unchanged_partial : forall data start read,
  start + 10 <= lenN data -> (forall r, takeN 3 (dropN start data) = $"ID3" -> nth 5 (dropN start data) 0 = r -> flag r 0x40 = false) ->
  match find_id3v2 data start read None with
  | Ok (None, t, p) => p = start /\ t = None
  | Ok (Some _, _, _) => takeN 3 (dropN start data) = $"ID3"
  | Err _ => takeN 3 (dropN start data) = $"ID3"
  | Panic => False
  end.
Proof.
  intros data start read L F. unfold find_id3v2.
  assert (RE : exists h r, read_exact 10 (dropN start data) = Some (h, r)).
  { unfold read_exact. rewrite lenN_dropN. replace (10 <=? lenN data - start) with true by lia. eauto. }
  destruct RE as (h & r & RE). unfold header_parse. rewrite RE. apply read_exact_spec in RE as [RE LE].
  assert (LR : lenN data = start + 10 + lenN r).
  { assert (X : lenN (dropN start data) = lenN (h ++ r)) by now rewrite RE. rewrite lenN_dropN, lenN_app in X. lia. }
  assert (T3 : takeN 3 (dropN start data) = takeN 3 h) by (rewrite RE, takeN_app_le by lia; auto).
  assert (BK : forall x, seek_back (N.max start (lenN data - lenN r)) 10 = Some x -> x = start).
  { unfold seek_back. intros x. replace (N.max start (lenN data - lenN r)) with (start + 10) by lia. replace (start + 10 <? 10) with false by lia.
    intro E. injection E as <-. lia. }
  assert (BK2 : seek_back (N.max start (lenN data - lenN r)) 10 = Some start).
  { unfold seek_back. replace (N.max start (lenN data - lenN r)) with (start + 10) by lia. replace (start + 10 <? 10) with false by lia. f_equal. lia. }
  destruct (list_eqb (takeN 3 h) $"ID3") eqn:ID; cbn [negb]. 2: { rewrite BK2. auto. }
  apply list_eqb_eq in ID. rewrite ID in T3.
  destruct (if nth 3 h 0 =? 2 then _ else _) as [v|]. 2: { rewrite BK2. auto. }
  assert (N5 : nth 5 (dropN start data) 0 = nth 5 h 0). { rewrite RE. apply app_nth1. unfold lenN in LE. lia. }
  rewrite (F _ T3 N5), !andb_false_r. unfold header_ext. cbn iota. change ((0 <? 0) && _) with false. cbn iota. cbn [h_size h_flags tf_footer].
  destruct read. destruct (read_exact _ r) as [[? ?]|]; cbn [bind]; auto. cbn [bind]. auto.
Qed.
Print Assumptions C53_unchanged_partial.
Theorem C53_unchanged_refuted : ~ (forall data start, start <= lenN data -> takeN 3 (dropN start data) <> $"ID3" ->
  find_id3v2 data start false None = Ok (None, None, start)).
Proof. intro H. specialize (H [1; 2; 3; 4; 5] 0 ltac:(vm_compute; discriminate) ltac:(vm_compute; discriminate)). vm_compute in H. discriminate. Qed.
Print Assumptions C53_unchanged_refuted.
Theorem C53_bad_extended_header_refuted : exists data p, find_id3v2 data 0 false None = Ok (None, None, p) /\ p <> 0.
Proof. exists (hdr_bytes 4 0 0x40 20 ++ [0; 0; 0; 5] ++ repeat 0 20), 4. vm_compute. split; auto. discriminate. Qed.
Print Assumptions C53_bad_extended_header_refuted.
Example C53_ex : find_id3v2 ($"fLaC" ++ repeat 0 20) 0 true None = Ok (None, None, 0).
Proof. vm_compute. reflexivity. Qed.

(** C54 *)
Theorem C54_junk_search : forall w,
  match find_id3v2_in_junk w with
  | Ok (Some (off, rest)) => exists pre, w = pre ++ $"ID3" ++ rest /\ off = lenN pre /\
      (forall p q, w = p ++ $"ID3" ++ q -> lenN pre <= lenN p)
  | Ok None => forall p q, w <> p ++ $"ID3" ++ q
  | Err _ => False
  | Panic => False
  end.
Proof. exact junk_spec. Qed.
Print Assumptions C54_junk_search.
Theorem C54_junk_then_tag : forall junk major minor flags n body rest window read,
  n < 2 ^ 32 -> (major = 2 \/ major = 3 \/ major = 4) -> flag flags 0x40 = false -> lenN body = unsynch32 n ->
  (forall p q, junk ++ $"ID3" = p ++ $"ID3" ++ q -> p = junk) -> lenN junk + 3 <= window ->
  exists h t, find_id3v2 (junk ++ hdr_bytes major minor flags n ++ body ++ rest) 0 read (Some window) =
    Ok (Some h, t, lenN junk + tag_len (unsynch32 n) (negb (major =? 2) && flag flags 0x10)) /\ (read = true -> t = Some body).
Proof.
  intros junk major minor flags n body rest window read Hn Hm Hf Hb Hj Hw.
  remember (junk ++ hdr_bytes major minor flags n ++ body ++ rest) as data.
  assert (Hm' : (major = 2 /\ flag flags 0x40 = false \/ (major = 3 \/ major = 4) /\ flag flags 0x40 = false)) by (destruct Hm as [->|[->| ->]]; auto).
  destruct (C51_end_of_tag_partial junk major minor flags n (body ++ rest) read Hn Hm' ltac:(rewrite lenN_app; lia)) as (h & t & E & T & _).
  exists h, t. split. 2: { intros R. rewrite (T R). rewrite takeN_app by auto. reflexivity. }
  rewrite <- E. rewrite <- Heqdata. unfold find_id3v2.
  pose proof (C54_junk_search (takeN window (dropN 0 data))) as J. rewrite dropN_0 in *.
  assert (W : exists w', takeN window data = junk ++ $"ID3" ++ w').
  { subst data. rewrite takeN_app_ge by lia. exists (takeN (window - lenN junk - 3) (dropN 3 (hdr_bytes major minor flags n ++ body ++ rest))).
    f_equal. unfold hdr_bytes. rewrite <- app_assoc. rewrite takeN_app_ge by (change (lenN $"ID3") with 3; lia). rewrite dropN_app by reflexivity. reflexivity. }
  destruct W as [w' W]. rewrite W in *.
  destruct (find_id3v2_in_junk (junk ++ $"ID3" ++ w')) as [[[off r]|]| |]; try contradiction.
  - destruct J as (pre & J1 & J2 & J3). cbn [bind].
    assert (P : pre = junk).
    { specialize (J3 junk w' eq_refl).
      assert (Q : exists q, junk ++ $"ID3" = pre ++ $"ID3" ++ q).
      { apply (f_equal (takeN (lenN junk + 3))) in J1. rewrite app_assoc in J1.
        rewrite takeN_app in J1 by (rewrite lenN_app; reflexivity). rewrite app_assoc in J1.
        rewrite takeN_app_ge in J1 by (rewrite lenN_app; change (lenN $"ID3") with 3; lia).
        rewrite <- app_assoc in J1. eauto. }
      destruct Q as [q Q]. now apply Hj in Q. }
    subst pre. rewrite !lenN_app. change (lenN $"ID3") with 3.
    assert (R : r = w'). { apply app_inv_head in J1. now injection J1 as <-. }
    subst r. replace (0 + (lenN junk + (3 + lenN w')) - lenN w' - 3) with (lenN junk) by lia. reflexivity.
  - exfalso. apply (J junk w'). reflexivity.
Qed.
Print Assumptions C54_junk_then_tag.
Example C54_ex : find_id3v2_in_junk ($"..IID3x") = Ok (Some (3, $"x")) /\ find_id3v2_in_junk ($"..ID") = Ok None.
Proof. vm_compute. auto. Qed.
