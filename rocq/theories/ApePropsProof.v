(** Whole APE files: ID3v2 in front, the audio, an APE tag, an ID3v1 tag. *)
From Verif Require Import BaseLemmas StrLemmas F64Proof Id3v1Model Id3v1Thm Id3v2HeaderModel Id3v2HeaderProof Id3v2HeaderThm FrameReadModel AiffModel MpegModel MpegProof3 MpegProof5 TailProof MusepackProof2 ApeModel ApeThm2.
From Verif Require Export ApePropsModel.
From Verif Require Import Base Str.

(** The ID3v2 tag counts whether it is read or not. *)
Lemma front_whole : forall inflate o pre v2 rest, front inflate o pre v2 -> 10 <= lenN rest -> takeN 3 rest <> $"ID3" ->
  exists h c, find_id3v2 (pre ++ rest) 0 (mo_tags o) None = Ok (h, c, lenN pre) /\
    match h, c with
    | Some h, Some c => full_tag_size h = Ok (lenN pre) /\ exists t r, parse_id3v2 inflate h (mo_frames o) c = Ok (t, r) /\ v2 = Some t
    | Some h, None => full_tag_size h = Ok (lenN pre) /\ v2 = None
    | None, _ => pre = [] /\ c = None /\ v2 = None
    end.
Proof.
  intros inflate o pre v2 rest [[-> ->]|(t & foot & -> & OK & LF & ->)] L NI.
  - exists None, None. cbn [app]. pose proof (C53_unchanged_partial rest 0 (mo_tags o)) as C. rewrite dropN_0 in C. specialize (C ltac:(lia) ltac:(intros; congruence)).
    destruct (find_id3v2 rest 0 (mo_tags o) None) as [[[[h|] t] p]|e|]; try tauto. destruct C as [-> ->]. auto.
  - assert (OK' := OK). destruct OK' as (_ & _ & _ & LC & PA). destruct (vtag_parse inflate (mo_frames o) t (foot ++ rest) OK) as [HP _].
    unfold find_id3v2. rewrite dropN_0. rewrite <- app_assoc. rewrite HP.
    assert (HS : h_size (tg_header t) = lenN (tg_content t)) by (symmetry; exact LC). change (tf_footer (h_flags (tg_header t))) with (tg_footer t).
    assert (FS : full_tag_size (tg_header t) = Ok (lenN (vtag_bytes t ++ foot))).
    { unfold full_tag_size. change (tf_footer (h_flags (tg_header t))) with (tg_footer t). rewrite HS. change (h_ext_size (tg_header t)) with 0. rewrite lenN_app, vtag_len, LF.
      assert (U : lenN (tg_content t) < 2 ^ 28). { rewrite LC. apply unsynch32_bound. } destruct (N.ltb_spec U32_MAX (lenN (tg_content t) + 10 + 0 + (if tg_footer t then 10 else 0))) as [X|X]; [exfalso; unfold U32_MAX in X; destruct (tg_footer t); lia|]. f_equal. lia. }
    destruct (mo_tags o) eqn:TG.
    + rewrite HS, read_exact_app by reflexivity. cbn [bind]. exists (Some (tg_header t)), (Some (tg_content t)). split.
      * do 2 f_equal. rewrite !lenN_app, vtag_len, LF. destruct (tg_footer t); lia.
      * split; [exact FS|]. eauto.
    + cbn [bind]. exists (Some (tg_header t)), None. split.
      * do 2 f_equal. rewrite !lenN_app, vtag_len, LF, HS. destruct (tg_footer t); lia.
      * split; [exact FS|reflexivity].
Qed.
Lemma no_tag_pos : forall data f cover tags r t r', read_ape_tag data f cover tags r = Ok (t, None, r') -> fst r' = fst r + 8.
Proof.
  intros data f cover tags r t r' H. unfold read_ape_tag, rd_exact in H. destruct (read_exact 8 (snd r)) as [[p x]|] eqn:E; [|discriminate]. cbn [or_io bind] in H. destruct (list_eqb p PREAMBLE).
  - destruct (read_ape_header data f _) as [[[size count] r2]| |]; try discriminate. cbn [bind] in H. destruct tags; [|discriminate]. destruct (read_with_header size count cover r2) as [[t1 r3]| |]; discriminate.
  - injection H as _ <-. reflexivity.
Qed.

(** The tags of an APE file with the audio [body] *)
Definition mac_tags (inflate : bytes -> option bytes) (o : mopts) (pre body ape v1 : bytes) (v2 : option id3v2_tag) (v1t : option id3v1) : Prop :=
  front inflate o pre v2 /\ file_end (pre ++ body ++ ape ++ v1) v1 /\ old_tag (pre ++ body) ape /\ v1_of o v1 v1t.
(** The position after looking for the APE tag, which is taken for the length of the file *)
Definition reached (o : mopts) (pre body ape : bytes) : N :=
  match ape with [] => lenN (pre ++ body) - 24 | _ => if mo_tags o then lenN (pre ++ body ++ ape) else lenN (pre ++ body) + 32 end.
Lemma mac_shape : forall inflate o pre m ape v1 v2 v1t, let body := $"MAC " ++ m in mac_tags inflate o pre body ape v1 v2 v1t -> 32 <= lenN (body ++ ape) ->
  exists t, ape_of o ape t /\ mac_file_read inflate o (pre ++ body ++ ape ++ v1) =
    let? p := (if mo_props o then mac_read (m ++ ape ++ v1) (lenN body) (reached o pre body ape) (mo_strict o) else Ok mac_default) in Ok (mkMacF v2 v1t t p).
Proof.
  intros inflate o pre m ape v1 v2 v1t body (FR & FE & OT & V1) L32. rewrite app_assoc in FE.
  destruct (tail_pieces o (pre ++ body) ape v1 v1t FE OT) as (fd & t & h & r & A & B & C & D & E & F & G); auto. { rewrite !lenN_app in *. lia. }
  exists t. split; [exact G|]. set (data := (pre ++ body) ++ ape ++ v1) in *. replace (pre ++ body ++ ape ++ v1) with data by (unfold data; now rewrite <- app_assoc).
  assert (LD : lenN data = lenN pre + lenN body + lenN ape + lenN v1) by (unfold data; rewrite !lenN_app; lia).
  destruct (front_whole inflate o pre v2 (body ++ ape ++ v1) FR) as (h2 & c2 & FI & MA). { rewrite !lenN_app in *. lia. } { unfold body. discriminate. }
  assert (FI' : find_id3v2 data 0 (mo_tags o) None = Ok (h2, c2, lenN pre)) by (unfold data; rewrite <- app_assoc; exact FI).
  unfold mac_file_read, front_parsed. rewrite FI'. unfold ape_read_from. rewrite FI'.
  assert (DP : rd_at data (lenN pre) = (lenN pre, $"MAC " ++ m ++ ape ++ v1)). { unfold rd_at. f_equal. unfold data, body. rewrite <- !app_assoc. now apply dropN_app. }
  assert (RM : forall n, read_mac data (fo_cover (mo_frames o)) (mo_tags o) (rd_at data (lenN pre)) n = Ok (lenN pre + 4, n)).
  { intros n. rewrite DP. unfold read_mac, rd_exact. cbn [fst snd]. rewrite read_exact_app by reflexivity. reflexivity. }
  assert (DM : dropN (lenN pre + 4) data = m ++ ape ++ v1). { unfold data, body. rewrite <- !app_assoc. rewrite (app_assoc pre). apply dropN_app. now rewrite lenN_app. }
  assert (LP : lenN data <? lenN pre = false) by (apply N.ltb_ge; lia).
  assert (SP : (match h2 with None => Ok (lenN data) | Some h => match full_tag_size h with Ok n => sub_or (lenN data) n Ok | _ => Panic end end) = @Ok ape_error _ (lenN data - lenN pre)).
  { destruct h2 as [h2|]. - assert (FS : full_tag_size h2 = Ok (lenN pre)) by (destruct c2; tauto). rewrite FS. unfold sub_or. now rewrite LP. - destruct MA as (-> & _). now rewrite lenN_nil, N.sub_0_r. }
  rewrite SP. cbn [bind].
  assert (SI : (match h2, c2 with Some h, Some c => if (match parse_id3v2 inflate h (mo_frames o) c with Ok _ => true | _ => false end) then Ok 0 else Err AFind | _, _ => Ok 0 end) = @Ok ape_error _ 0).
  { destruct h2 as [h2|]; [|reflexivity]. destruct c2 as [c2|]; [|reflexivity]. destruct MA as (_ & t2 & r2 & -> & _). reflexivity. }
  rewrite SI. cbn [bind]. rewrite RM. cbn [bind]. rewrite A.
  assert (V : (if fd && mo_tags o then match v1_parse (dropN (lenN ((pre ++ body) ++ ape)) data) (mo_strict o) with Ok v => Ok (Some v) | Err _ => Err AFind | Panic => Panic end else Ok None) = @Ok ape_error _ v1t).
  { destruct (fd && mo_tags o); [destruct C as (x & -> & ->); reflexivity|now rewrite C]. }
  rewrite V. cbn [bind].
  assert (S1 : (if fd then sub_or (lenN data - lenN pre) 128 Ok else Ok (lenN data - lenN pre)) = @Ok ape_error _ (lenN body + lenN ape)).
  { unfold sub_or. destruct fd; [destruct (N.ltb_spec (lenN data - lenN pre) 128); [lia|]|]; f_equal; lia. }
  rewrite S1. cbn [bind]. rewrite D. unfold sub_or. assert (ZL : lenN body + lenN ape <? 0 = false) by (apply N.ltb_ge; lia). rewrite ZL, N.sub_0_r.
  unfold seek_back. destruct (N.ltb_spec (lenN ((pre ++ body) ++ ape)) 32). { rewrite !lenN_app in *. lia. } rewrite E. cbn [bind].
  assert (FIN : (match h with Some (size, _) => if lenN body + lenN ape <? size then Panic else Ok (mkApeFile v1t t (lenN pre + 4) (lenN body + lenN ape - size) (fst r)) | None => Ok (mkApeFile v1t t (lenN pre + 4) (lenN body + lenN ape) (fst r)) end)
    = @Ok ape_error _ (mkApeFile v1t t (lenN pre + 4) (lenN body) (reached o pre body ape))).
  { destruct h as [[size n]|].
    - destruct F as (-> & NE & FR1). destruct (N.ltb_spec (lenN body + lenN ape) (lenN ape)); [lia|]. rewrite FR1. replace (lenN body + lenN ape - lenN ape) with (lenN body) by lia. unfold reached. destruct ape; [contradiction|]. now rewrite <- app_assoc.
    - apply no_tag_pos in E. rewrite E. cbn [fst rd_at]. unfold reached. rewrite F, app_nil_r, lenN_nil, N.add_0_r. replace (lenN (pre ++ body) - 32 + 8) with (lenN (pre ++ body) - 24); [reflexivity|]. rewrite F in L32. rewrite !lenN_app in *. rewrite lenN_nil in L32. lia. }
  rewrite FIN. clear FIN. cbn [af_mac af_stream_len af_file_len af_v1 af_ape]. rewrite DM. clear SI SP V S1 RM.
  destruct h2 as [h2|]; [|destruct MA as (_ & _ & ->); reflexivity]. destruct c2 as [c2|]; [|destruct MA as (_ & ->); reflexivity]. destruct MA as (-> & t2 & r2 & PA & ->). rewrite LP, PA. reflexivity.
Qed.
