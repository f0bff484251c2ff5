(** Property theorems: a generic tag saved as ID3v1 is read back (C242). *)
From Verif Require Import Base BaseLemmas StrLemmas PictureThm TextModel TimestampModel TimestampSpec TimestampThm FileModel Id3v1Model Id3v1Spec Id3v1Proof Id3v1Thm.
From Verif Require Import FrameReadModel MpegModel MpegProof3 MpegProof4 MpegThm.
From Verif Require Import TagModel TagThm.

(** What ID3v1 can keep of a generic tag, as it is shown by the tag that is read. *)
Record v1_keeps {C D} (t : tag C) (r : tag D) : Prop := {
  kp_title : get_string r KTrackTitle = fits 30 (get_string t KTrackTitle);
  kp_artist : get_string r KTrackArtist = fits 30 (get_string t KTrackArtist);
  kp_album : get_string r KAlbumTitle = fits 30 (get_string t KAlbumTitle);
  kp_comment : get_string r ItemKeyModel.KComment = fits 28 (get_string t ItemKeyModel.KComment);
  kp_year : forall y, y <= 9999 -> get_string t KYear = Some (to_dec y) -> get_string r KYear = Some (to_dec y);
  kp_date : forall d, ts_verify d = Ok tt -> get_string t KYear = None -> get_string t KRecordingDate = Some (ts_display d) -> get_string r KYear = Some (to_dec (ts_year d));
  kp_track : forall n, 1 <= n <= 255 -> get_string t KTrackNumber = Some (to_dec n) -> get_string r KTrackNumber = Some (to_dec n);
  kp_genre : forall g, In g GENRES -> get_string t KGenre = Some g -> get_string r KGenre = Some g;
  kp_none : (get_string t KYear = None -> get_string t KRecordingDate = None -> get_string r KYear = None) /\
    (get_string t KTrackNumber = None -> get_string r KTrackNumber = None) /\ (get_string t KGenre = None -> get_string r KGenre = None);
  kp_plain : t_type r = Id3v1 /\ t_pictures r = [] }.

(** The values a tag made of an ID3v1 tag has *)
Definition v1_strings (v : id3v1) : item_key -> option str :=
  upd (upd (upd (upd (upd (upd (upd (fun _ => None) KTrackTitle (v1_title v)) KTrackArtist (v1_artist v)) KAlbumTitle (v1_album v))
     KYear (option_map to_dec (v1_year v))) ItemKeyModel.KComment (v1_comment v)) KTrackNumber (option_map to_dec (v1_track v))) KGenre
     (match v1_genre v with Some g => nth_error GENRES (N.to_nat g) | None => None end).
Lemma tag_of_v1_holds : forall C v, holds (tag_of_v1 v : tag C) (v1_strings v) /\ t_pictures (tag_of_v1 v : tag C) = [].
Proof.
  intros C v. assert (SU : forall k, supports Id3v1 k = true -> supported Id3v1 k) by (intros; now apply supports_iff).
  assert (H0 : holds (tag_new Id3v1 : tag C) (fun _ => None)) by (split; auto).
  assert (H1 := holds_add _ _ _ KTrackTitle (v1_title v) (SU KTrackTitle eq_refl) H0).
  assert (H2 := holds_add _ _ _ KTrackArtist (v1_artist v) (SU KTrackArtist eq_refl) H1).
  assert (H3 := holds_add _ _ _ KAlbumTitle (v1_album v) (SU KAlbumTitle eq_refl) H2).
  assert (H4 := holds_add _ _ _ KYear (option_map to_dec (v1_year v)) (SU KYear eq_refl) H3).
  assert (H5 := holds_add _ _ _ ItemKeyModel.KComment (v1_comment v) (SU ItemKeyModel.KComment eq_refl) H4).
  assert (H6 := holds_add _ _ _ KTrackNumber (option_map to_dec (v1_track v)) (SU KTrackNumber eq_refl) H5).
  assert (H7 := holds_add _ _ _ KGenre (match v1_genre v with Some g => nth_error GENRES (N.to_nat g) | None => None end) (SU KGenre eq_refl) H6).
  assert (P : forall n (t : tag C), t_type t = Id3v1 -> with_key KTrackNumber (t_items t) = [] ->
      match n with Some n => push_unchecked (new_item KTrackNumber (VText (to_dec n))) t | None => t end = add_text KTrackNumber (option_map to_dec n) t).
  { intros [n|] t T W; [|reflexivity]. cbn [option_map]. apply push_insert; auto. }
  assert (E : tag_of_v1 v = add_text KGenre (match v1_genre v with Some g => nth_error GENRES (N.to_nat g) | None => None end) (add_text KTrackNumber (option_map to_dec (v1_track v)) (add_text ItemKeyModel.KComment (v1_comment v)
     (add_text KYear (option_map to_dec (v1_year v)) (add_text KAlbumTitle (v1_album v) (add_text KTrackArtist (v1_artist v)
     (add_text KTrackTitle (v1_title v) (tag_new Id3v1 : tag C)))))))).
  { unfold tag_of_v1. cbv zeta. rewrite P; [|apply H5|destruct H5 as [_ ->]; reflexivity]. destruct (v1_genre v) as [g|]; [|reflexivity]. destruct (nth_error GENRES (N.to_nat g)); reflexivity. }
  split; [rewrite E; exact H7|]. rewrite E.
  assert (G : forall k o (t : tag C), t_pictures (add_text k o t) = t_pictures t).
  { intros k [s|] t; [|reflexivity]. cbn [add_text]. unfold insert_text, insert. destruct (supports _ _); reflexivity. }
  now rewrite !G.
Qed.
Ltac keys := unfold v1_strings, upd; repeat match goal with |- context[ik_eqb ?a ?b] => let r := eval vm_compute in (ik_eqb a b) in change (ik_eqb a b) with r; cbn iota end.
Lemma or_none : forall A (o : option A), match o with Some s => Some s | None => None end = o.
Proof. intros A [a|]; reflexivity. Qed.
Lemma position_in : forall g, In g GENRES -> exists p, p < 192 /\ genre_position 0 GENRES g = Some p /\ nth_error GENRES (N.to_nat p) = Some g.
Proof.
  intros g I. apply In_nth_error in I as (n & E). assert (L : (n < length GENRES)%nat) by (apply nth_error_Some; congruence). change (length GENRES) with 192%nat in L.
  destruct (genre_pos_at (N.of_nat n)) as (s & E1 & E2); [lia|]. rewrite Nnat.Nat2N.id in E1. rewrite E in E1. injection E1 as <-. exists (N.of_nat n). rewrite Nnat.Nat2N.id. split; [lia|]. auto.
Qed.
Lemma ref_ranges : forall C (t : tag C), v1_ranges (v1_ref_of_tag t).
Proof.
  intros C t. unfold v1_ranges, v1_ref_of_tag. cbn [v1_year v1_track v1_genre]. split; [|split].
  - unfold v1_year_of. destruct (match get_string t KYear with Some y => parse_uint U16_MAX y | None => None end) as [y|] eqn:E; cbn.
    + destruct (get_string t KYear); [|discriminate]. apply parse_uint_bound in E. unfold U16_MAX in E. lia.
    + unfold tag_date. destruct (match get_string t KRecordingDate with Some s => Some s | None => get_string t KYear end) as [d|]; cbn; auto.
      pose proof (C20_parse_total (utf8_enc d) Relaxed) as T. destruct (ts_parse (utf8_enc d) Relaxed) as [[d'|]| |]; cbn; auto. destruct T as [T _]. lia.
  - unfold v1_track_of. destruct (get_string t KTrackNumber) as [s|]; cbn; auto. destruct (parse_uint U8_MAX s) as [n|] eqn:E; cbn; auto. apply parse_uint_bound in E. unfold U8_MAX in E. lia.
  - unfold v1_genre_of. destruct (get_string t KGenre) as [g|]; cbn [opt_all]; auto. destruct (genre_position 0 GENRES g) as [p|]; cbn [opt_all]; [apply N.mod_lt; discriminate|].
    destruct (parse_uint U8_MAX g) as [n|] eqn:E; cbn; auto. apply parse_uint_bound in E. unfold U8_MAX in E. lia.
Qed.
Lemma norm_keeps : forall C D (t : tag C), v1_keeps t (tag_of_v1 (norm (v1_ref_of_tag t)) : tag D).
Proof.
  intros C D t. destruct (tag_of_v1_holds D (norm (v1_ref_of_tag t))) as [H P]. set (v := norm (v1_ref_of_tag t)) in *.
  assert (G : forall k, get_string (tag_of_v1 v : tag D) k = v1_strings v k) by (intro k; now apply holds_string).
  constructor; rewrite ?G; try (keys; rewrite or_none; reflexivity).
  - intros y L E. keys. unfold v, norm, v1_ref_of_tag. cbn [v1_year]. unfold v1_year_of. rewrite E, parse_uint_to_dec by (unfold U16_MAX; lia). cbn. now rewrite N.min_l by lia.
  - intros d V E1 E2. keys. unfold v, norm, v1_ref_of_tag. cbn [v1_year]. unfold v1_year_of, tag_date. rewrite E1, E2. rewrite utf8_ascii by apply display_ascii. destruct (C18_roundtrip d Relaxed V) as (-> & _). apply C18_verify_exact in V. cbn [option_map]. rewrite N.min_l; [reflexivity|]. apply V.
  - intros n L E. keys. unfold v, norm, v1_ref_of_tag. cbn [v1_track]. unfold v1_track_of. rewrite E, parse_uint_to_dec by (unfold U8_MAX; lia). destruct n; [lia|]. reflexivity.
  - intros g I E. keys. destruct (position_in g I) as (p & L & E1 & E2). unfold v, norm, v1_ref_of_tag. cbn [v1_genre]. unfold v1_genre_of. rewrite E, E1, N.mod_small by lia.
    replace (p <? 192) with true by (symmetry; apply N.ltb_lt; lia). now rewrite E2.
  - split; [|split].
    + intros E1 E2. keys. unfold v, norm, v1_ref_of_tag. cbn [v1_year]. unfold v1_year_of, tag_date. rewrite E1, E2. reflexivity.
    + intros E. keys. unfold v, norm, v1_ref_of_tag. cbn [v1_track]. unfold v1_track_of. rewrite E. reflexivity.
    + intros E. keys. unfold v, norm, v1_ref_of_tag. cbn [v1_genre]. unfold v1_genre_of. rewrite E. reflexivity.
  - split; [apply H|exact P].
Qed.

(** Saving puts the block at the end of the file, in place of the one that was there; it reads as the tag, in all parsing modes if there is a year. *)
Theorem C242_block : forall C D (t : tag C) lossy data audio found log, file_shape data audio found -> v1_latin1 (v1_ref_of_tag t) -> v1_is_empty (v1_ref_of_tag t) = false ->
  write_id3v1 data (v1_ref_of_tag t) lossy = Ok log ->
  exists b v, apply_log data log = audio ++ b /\ lenN b = 128 /\ takeN 3 b = $"TAG" /\ v1_keeps t (tag_of_v1 v : tag D) /\
    forall strict, (strict = false \/ v1_year (v1_ref_of_tag t) <> None) -> v1_parse b strict = Ok v.
Proof.
  intros C D t lossy data audio found log F L E W. pose proof (C17_save data audio found (v1_ref_of_tag t) lossy F) as S. rewrite W in S. destruct S as (S & _). destruct (S E) as (b & B & A).
  exists b, (norm (v1_ref_of_tag t)). pose proof (C14_block (v1_ref_of_tag t) lossy) as K. rewrite B in K. destruct K as (K1 & K2 & _). split; auto. split; auto. split; auto. split; [apply norm_keeps|].
  intros strict Y. destruct (C15_roundtrip (v1_ref_of_tag t) lossy strict L (ref_ranges C t) Y) as (b' & B' & R). congruence.
Qed.
Print Assumptions C242_block.
(** In an MPEG file; the other tags stay. *)
Theorem C242_mpeg : forall C D (t : tag C) lossy inflate o m x l log, mfile_ok inflate o m -> mx_frames m = x :: l -> mo_tags o = true ->
  v1_latin1 (v1_ref_of_tag t) -> v1_is_empty (v1_ref_of_tag t) = false -> (mo_strict o = false \/ v1_year (v1_ref_of_tag t) <> None) ->
  write_id3v1 (file_bytes m) (v1_ref_of_tag t) lossy = Ok log ->
  (mo_props o = false -> exists f, mpeg_read inflate o (apply_log (file_bytes m) log) = Ok f) /\
  forall f, mpeg_read inflate o (apply_log (file_bytes m) log) = Ok f -> (exists v, mf_id3v1 f = Some v /\ v1_keeps t (tag_of_v1 v : tag D)) /\ mf_id3v2 f = merged (mx_tags m).
Proof.
  intros C D t lossy inflate o m x l log OK EF T L E Y W.
  assert (SH : exists found, file_shape (file_bytes m) (through m ++ mx_ape m) found).
  { destruct OK as [_ _ _ _ _ OV _]. unfold file_bytes in *. rewrite app_assoc in *. destruct OV as [[V OV]|[V1 V2]].
    - exists false. rewrite V, app_nil_r in *. constructor. intros a b EQ LB TB. rewrite EQ in OV. rewrite lenN_app, LB in OV. apply OV; [lia|]. replace (lenN a + 128 - 128) with (lenN a) by lia. now rewrite (dropN_app _ (lenN a) a b eq_refl).
    - exists true. constructor; auto. }
  destruct SH as (found & SH). destruct (C242_block C D t lossy _ _ _ _ SH L E W) as (b & v & A & LB & TB & KP & PB). specialize (PB _ Y).
  set (m' := mkFile (mx_zeros m) (mx_foot m) (mx_tags m) (mx_frames m) (mx_ape m) b).
  assert (FB : file_bytes m' = apply_log (file_bytes m) log) by (rewrite A; unfold file_bytes; now rewrite <- app_assoc).
  assert (OK' : mfile_ok inflate o m') by (destruct OK as [OT OF OS OR OA OV OD]; constructor; auto; right; auto).
  rewrite <- FB. destruct (read_main inflate o m' x l (Some v) OK' EF) as (ape & _ & _ & R); [cbn; auto|]. cbv zeta in R. rewrite T in R. split.
  - intro P. rewrite P in R. eauto.
  - intros f RF. rewrite RF in R. assert (X : mf_id3v2 f = merged (mx_tags m) /\ mf_id3v1 f = Some v).
    { destruct (mo_props o).
      - destruct (read_exact 32 _) as [[p r]|]; [|discriminate R]. destruct (vbr_read p) as [vbr| |]; cbn [bind] in R; try discriminate R. destruct (read_properties _ _ _ _ _ _); cbn [bind] in R; try discriminate R. injection R as ->. auto.
      - injection R as ->. auto. }
    destruct X as [X1 X2]. eauto.
Qed.
Print Assumptions C242_mpeg.

(** ** Examples *)
Definition v1_read_back (data : bytes) (t : tag unit) (strict : bool) : option (tag unit) :=
  match write_id3v1 data (v1_ref_of_tag t) false with
  | Ok log => let d := apply_log data log in match v1_parse (dropN (lenN d - 128) d) strict with Ok v => Some (tag_of_v1 v) | _ => None end
  | _ => None
  end.
Definition texts (l : list (item_key * str)) : list tag_item := map (fun x => new_item (fst x) (VText (snd x))) l.
Definition v1_ex : list (item_key * str) :=
  [(KGenre, $"Rock"); (KTrackTitle, $"Title"); (KTrackArtist, $"Artist"); (KAlbumTitle, $"Album"); (KRecordingDate, $"1999-07-01"); (ItemKeyModel.KComment, $"Hello"); (KTrackNumber, $"7")].
Example C242_ex : v1_latin1 (v1_ref_of_tag (mkTag Id3v1 [] (texts v1_ex) None : tag unit)) /\
  option_map (fun t => t_items t) (v1_read_back [1; 2; 3] (mkTag Id3v1 [] (texts v1_ex) None) true) =
  Some (texts [(KTrackTitle, $"Title"); (KTrackArtist, $"Artist"); (KAlbumTitle, $"Album"); (KYear, $"1999"); (ItemKeyModel.KComment, $"Hello"); (KTrackNumber, $"7"); (KGenre, $"Rock")]).
Proof. split; [repeat split; cbn; auto; repeat constructor; discriminate|vm_compute; reflexivity]. Qed.
(** Texts are cut after 30 characters. *)
Theorem C242_length_refuted : option_map (fun t => t_items t) (v1_read_back [] (mkTag Id3v1 [] (texts [(KTrackTitle, repeat 65 31)]) None) false) = Some (texts [(KTrackTitle, repeat 65 30)]).
Proof. vm_compute. reflexivity. Qed.
Print Assumptions C242_length_refuted.
(** A genre is only known when it is written exactly as in the list; a number is another way to write one. *)
Theorem C242_genre_refuted : option_map (fun t => t_items t) (v1_read_back [] (mkTag Id3v1 [] (texts [(KTrackTitle, $"a"); (KGenre, $"rock")]) None) false) = Some (texts [(KTrackTitle, $"a")]) /\
  option_map (fun t => t_items t) (v1_read_back [] (mkTag Id3v1 [] (texts [(KTrackTitle, $"a"); (KGenre, $"17")]) None) false) = Some (texts [(KTrackTitle, $"a"); (KGenre, $"Rock")]).
Proof. split; vm_compute; reflexivity. Qed.
Print Assumptions C242_genre_refuted.
(** A track number above 255 is lost. *)
Theorem C242_track_refuted : option_map (fun t => t_items t) (v1_read_back [] (mkTag Id3v1 [] (texts [(KTrackTitle, $"a"); (KTrackNumber, $"256")]) None) false) = Some (texts [(KTrackTitle, $"a")]).
Proof. vm_compute. reflexivity. Qed.
Print Assumptions C242_track_refuted.
(** Without a year the strict reader refuses what was saved. *)
Theorem C242_strict_refuted : v1_read_back [] (mkTag Id3v1 [] (texts [(KTrackTitle, $"a")]) None) true = None /\
  exists t, v1_read_back [] (mkTag Id3v1 [] (texts [(KTrackTitle, $"a")]) None) false = Some t /\ t_items t = texts [(KTrackTitle, $"a")].
Proof. split; [vm_compute; reflexivity|]. eexists. split; vm_compute; reflexivity. Qed.
Print Assumptions C242_strict_refuted.
