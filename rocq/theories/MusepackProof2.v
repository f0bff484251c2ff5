(** The whole Musepack file, and its numbers. *)
From Verif Require Import BaseLemmas StrLemmas MathModel MathThm Id3v1Model Id3v1Thm Id3v2HeaderModel Id3v2HeaderProof Id3v2HeaderThm FrameReadModel ApeModel ApeThm2 AiffModel AiffProof3 MpegModel MpegProof MpegProof3 MpegProof5 F64Proof2 TailProof.
From Verif Require Export MusepackProof.
From Verif Require Import Base Str.

(** What is in front of the stream: nothing or an ID3v2 tag. *)
Definition front (inflate : bytes -> option bytes) (o : mopts) (pre : bytes) (v2 : option id3v2_tag) : Prop :=
  (pre = [] /\ v2 = None) \/
  (exists t foot, pre = vtag_bytes t ++ foot /\ vtag_ok inflate (mo_frames o) t /\ lenN foot = (if tg_footer t then 10 else 0) /\ v2 = if mo_tags o then Some (tg_parsed t) else None).
Lemma front_found : forall inflate o pre v2 rest, front inflate o pre v2 -> 10 <= lenN rest -> takeN 3 rest <> $"ID3" ->
  (exists h c, find_id3v2 (pre ++ rest) 0 (mo_tags o) None = Ok (h, c, lenN pre) /\
   match h, c with
   | Some h, Some c => full_tag_size h = Ok (lenN pre) /\ mo_tags o = true /\ exists t r, parse_id3v2 inflate h (mo_frames o) c = Ok (t, r) /\ v2 = Some t
   | _, _ => v2 = None /\ (mo_tags o = true -> pre = [])
   end).
Proof.
  intros inflate o pre v2 rest [[-> ->]|(t & foot & -> & OK & LF & ->)] L NI.
  - exists None, None. cbn [app]. pose proof (C53_unchanged_partial rest 0 (mo_tags o)) as C. rewrite dropN_0 in C. specialize (C ltac:(lia) ltac:(intros; congruence)).
    destruct (find_id3v2 rest 0 (mo_tags o) None) as [[[[h|] t] p]|e|]; try tauto. destruct C as [-> ->]. auto.
  - assert (OK' := OK). destruct OK' as (_ & _ & _ & LC & PA). destruct (vtag_parse inflate (mo_frames o) t (foot ++ rest) OK) as [HP _].
    unfold find_id3v2. rewrite dropN_0. rewrite <- app_assoc. rewrite HP.
    assert (LD : lenN (vtag_bytes t ++ foot ++ rest) = 10 + lenN (tg_content t) + lenN foot + lenN rest) by (rewrite !lenN_app, vtag_len; lia).
    assert (HS : h_size (tg_header t) = lenN (tg_content t)) by (symmetry; exact LC). change (tf_footer (h_flags (tg_header t))) with (tg_footer t).
    assert (FS : full_tag_size (tg_header t) = Ok (lenN (vtag_bytes t ++ foot))).
    { unfold full_tag_size. change (tf_footer (h_flags (tg_header t))) with (tg_footer t). rewrite HS. change (h_ext_size (tg_header t)) with 0. rewrite lenN_app, vtag_len, LF.
      assert (U : lenN (tg_content t) < 2 ^ 28). { rewrite LC. apply unsynch32_bound. } destruct (N.ltb_spec U32_MAX (lenN (tg_content t) + 10 + 0 + (if tg_footer t then 10 else 0))) as [X|X]; [exfalso; unfold U32_MAX in X; destruct (tg_footer t); lia|]. f_equal. lia. }
    destruct (mo_tags o) eqn:TG.
    + rewrite HS, read_exact_app by reflexivity. cbn [bind]. exists (Some (tg_header t)), (Some (tg_content t)). split.
      * do 2 f_equal. rewrite !lenN_app, vtag_len, LF. destruct (tg_footer t); lia.
      * split; [exact FS|]. split; [reflexivity|]. eauto.
    + cbn [bind]. exists (Some (tg_header t)), None. split.
      * do 2 f_equal. rewrite !lenN_app, vtag_len, LF, HS. destruct (tg_footer t); lia.
      * split; [reflexivity|discriminate].
Qed.

Definition mpc_stream (log_peak : N -> N) (o : mopts) (sl : N) (r : bytes) : res mpc_error mpc_props :=
  let? (magic, rest) := io (read_exact 4 r) in
  if mo_props o then
    if list_eqb magic ($"MPCK") then let? p := sv8_read (mo_strict o) rest in Ok (P8 p)
    else if list_eqb (takeN 3 magic) ($"MP+") then let? p := sv7_read log_peak sl (dropN 3 r) in Ok (P7 p)
    else let? p := sv6_read (mo_strict o) sl r in Ok (P6 p)
  else Ok (P8 sv8_default).
Definition seen_len (o : mopts) (pre body : bytes) : N := if mo_tags o then lenN body else lenN pre + lenN body.
(** The tags of a Musepack file *)
Definition mpc_tags (inflate : bytes -> option bytes) (o : mopts) (pre body ape v1 : bytes) (v2 : option id3v2_tag) (v1t : option id3v1) : Prop :=
  front inflate o pre v2 /\ file_end (pre ++ body ++ ape ++ v1) v1 /\ old_tag (pre ++ body) ape /\ v1_of o v1 v1t.
Lemma mpc_shape : forall inflate log_peak o pre body ape v1 v2 v1t, mpc_tags inflate o pre body ape v1 v2 v1t -> 32 <= lenN (body ++ ape) -> takeN 3 (body ++ ape ++ v1) <> $"ID3" ->
  exists t, ape_of o ape t /\ mpc_read inflate log_peak o (pre ++ body ++ ape ++ v1) =
    if negb (mo_tags o) && (lenN pre + lenN body + 32 <? lenN ape) then Err CSize
    else let? p := mpc_stream log_peak o (seen_len o pre body) (body ++ ape ++ v1) in Ok (mkMC Sv8 v2 v1t t p).
Proof.
  intros inflate log_peak o pre body ape v1 v2 v1t (FR & FE & OT & V1) L32 NI. rewrite app_assoc in FE.
  destruct (tail_pieces o (pre ++ body) ape v1 v1t FE OT) as (fd & t & h & r & A & B & C & D & E & F & G); auto. { rewrite !lenN_app in *. lia. }
  exists t. split; [exact G|]. set (data := (pre ++ body) ++ ape ++ v1) in *. replace (pre ++ body ++ ape ++ v1) with data by (unfold data; now rewrite <- app_assoc).
  assert (LD : lenN data = lenN pre + lenN body + lenN ape + lenN v1) by (unfold data; rewrite !lenN_app; lia).
  destruct (front_found inflate o pre v2 (body ++ ape ++ v1) FR) as (h2 & c2 & FI & MA); auto. { rewrite !lenN_app in *. lia. }
  unfold mpc_read. replace (find_id3v2 data 0 (mo_tags o) None) with (@Ok find_error _ (h2, c2, lenN pre)) by (symmetry; unfold data; rewrite <- app_assoc; exact FI). cbn [mpc_tag bind].
  assert (S2 : (match h2, c2 with Some h, Some c => let? n := mpc_tag (full_tag_size h) in let? sl := mpc_less (lenN data) n in let? (t, _) := mpc_tag (parse_id3v2 inflate h (mo_frames o) c) in Ok (Some t, sl) | _, _ => Ok (None, lenN data) end)
    = @Ok mpc_error _ (v2, if mo_tags o then lenN data - lenN pre else lenN data)).
  { assert (N0 : v2 = None /\ (mo_tags o = true -> pre = []) -> @Ok mpc_error _ (@None id3v2_tag, lenN data) = Ok (v2, if mo_tags o then lenN data - lenN pre else lenN data)).
    { intros [-> P]. destruct (mo_tags o); [|reflexivity]. rewrite P by reflexivity. now rewrite lenN_nil, N.sub_0_r. }
    destruct h2 as [h2|]; [|now apply N0]. destruct c2 as [c2|]; [|now apply N0]. destruct MA as (FS & TG & t2 & r2 & PA & ->). rewrite FS. cbn [mpc_tag bind]. unfold mpc_less. destruct (N.ltb_spec (lenN data) (lenN pre)); [lia|]. cbn [bind]. rewrite PA. cbn [mpc_tag bind]. now rewrite TG. }
  rewrite S2. clear S2. cbn [bind]. rewrite A.
  assert (V : (if fd && mo_tags o then let? t0 := mpc_tag (v1_parse (dropN (lenN ((pre ++ body) ++ ape)) data) (mo_strict o)) in Ok (Some t0) else Ok None) = @Ok mpc_error _ v1t).
  { destruct (fd && mo_tags o); [destruct C as (x & C1 & ->); rewrite C1; reflexivity|now rewrite C]. }
  rewrite V. cbn [bind]. set (s0 := if mo_tags o then lenN data - lenN pre else lenN data).
  assert (S0 : s0 = seen_len o pre body + lenN ape + lenN v1) by (unfold s0, seen_len; destruct (mo_tags o); lia).
  assert (S1 : (if fd then mpc_less s0 128 else Ok s0) = @Ok mpc_error _ (seen_len o pre body + lenN ape)). { unfold mpc_less. destruct fd; [destruct (N.ltb_spec s0 128); [lia|]|]; f_equal; lia. }
  rewrite S1. cbn [bind]. rewrite D. cbn [mpc_tag bind]. unfold mpc_less at 1. destruct (N.ltb_spec (seen_len o pre body + lenN ape) 0); [lia|]. cbn [bind]. rewrite N.sub_0_r.
  unfold seek_back. destruct (N.ltb_spec (lenN ((pre ++ body) ++ ape)) 32). { rewrite !lenN_app in *. lia. } rewrite E. cbn [mpc_tag bind].
  assert (DR : dropN (lenN pre) data = body ++ ape ++ v1) by (unfold data; rewrite <- app_assoc; now apply dropN_app).
  assert (DR3 : dropN (lenN pre + 3) data = dropN 3 (body ++ ape ++ v1)) by (rewrite <- dropN_dropN, DR; reflexivity).
  rewrite DR, DR3. unfold mpc_stream.
  assert (S3 : (match h with Some (size, _) => if fst r <? size then Err CSize else mpc_less (seen_len o pre body + lenN ape) size | None => Ok (seen_len o pre body + lenN ape) end)
    = if negb (mo_tags o) && (lenN pre + lenN body + 32 <? lenN ape) then Err CSize else @Ok mpc_error _ (seen_len o pre body)).
  { destruct h as [[size n]|].
    - destruct F as (-> & NE & FR1). rewrite FR1. rewrite !lenN_app. unfold mpc_less. destruct (N.ltb_spec (seen_len o pre body + lenN ape) (lenN ape)); [lia|]. replace (seen_len o pre body + lenN ape - lenN ape) with (seen_len o pre body) by lia.
      destruct (mo_tags o); cbn [negb andb]; [destruct (N.ltb_spec (lenN pre + lenN body + lenN ape) (lenN ape)); [lia|reflexivity]|reflexivity].
    - rewrite F, lenN_nil. replace (lenN pre + lenN body + 32 <? 0) with false by (symmetry; apply N.ltb_ge; lia). rewrite andb_false_r. now rewrite N.add_0_r. }
  rewrite S3. clear S3. destruct (negb (mo_tags o) && (lenN pre + lenN body + 32 <? lenN ape)); [reflexivity|]. cbn [bind].
  destruct (io (read_exact 4 (body ++ ape ++ v1))) as [[magic rest]| |]; reflexivity.
Qed.
