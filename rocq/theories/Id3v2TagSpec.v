(** What the accessors and the conversions of an ID3v2 tag should do. *)
From Verif Require Export FrameSpec.
From Verif Require Export Id3v2TagModel.

(** The frames with a name, and the others, in the order they have. *)
Definition has_name (id : str) (f : frame) : bool := id_eqb (f_id f) (Valid id).
Definition mine (id : str) (t : id3v2_tag) : list frame := filter (has_name id) (t_frames t).
Definition others (id : str) (t : id3v2_tag) : list frame := filter (fun f => negb (has_name id f)) (t_frames t).
(** No frame has this name, or one does and it is a text frame. *)
Definition plain_name (id : str) (t : id3v2_tag) : Prop :=
  mine id t = [] \/ exists h e s, mine id t = [FText h e s].
Definition same_head (t t' : id3v2_tag) : Prop := t_version t' = t_version t /\ t_flags t' = t_flags t.
(** The comments without a description. *)
Definition is_plain_comment (f : frame) : bool := match f with FComment _ _ _ [] _ => true | _ => false end.

(** ** The frames that a conversion to a Tag and back gives again. *)
(** Text frames of any number of values, and of one. *)
Definition MULTI_TEXT : list str :=
  [$"TALB"; $"TSST"; $"TIT1"; $"TIT2"; $"TIT3"; $"TOAL"; $"TOPE"; $"TOLY"; $"TPE2"; $"TPE1"; $"TEXT"; $"TCOM"; $"TPE3"; $"TPUB";
   $"TRSN"; $"TRSO"; $"TPE4"; $"MVNM"; $"TOWN"; $"TMOO"; $"TCOP"; $"TLAN"; $"GRP1"].
Definition SINGLE_TEXT : list str :=
  [$"TSOA"; $"TSO2"; $"TSOT"; $"TSOP"; $"TSOC"; $"TDRL"; $"TSRC"; $"TDTG"; $"TLEN"; $"TOFN"; $"TMED"; $"TENC"; $"TSSE"; $"TDEN";
   $"TKEY"; $"TBPM"; $"TDES"; $"TCAT"; $"TGID"; $"TKWD"].
Definition MULTI_USER : list str :=
  [$"ALBUMARTISTS"; $"ARTISTS"; $"DIRECTOR"; $"BARCODE"; $"Acoustid Id"; $"Acoustid Fingerprint"; $"CATALOGNUMBER";
   $"MusicBrainz Album Release Country"; $"MusicBrainz Artist Id"; $"MusicBrainz Album Artist Id"; $"MusicBrainz Work Id";
   $"MusicBrainz Album Type"].
Definition GAINS : list str :=
  [$"REPLAYGAIN_ALBUM_GAIN"; $"REPLAYGAIN_ALBUM_PEAK"; $"REPLAYGAIN_TRACK_GAIN"; $"REPLAYGAIN_TRACK_PEAK"].
Definition URLS : list str := [$"WOAF"; $"WOAS"; $"WCOM"; $"WCOP"; $"WOAR"; $"WORS"; $"WPAY"; $"WPUB"; $"WFED"].
Definition ROLES : list str := [$"producer"; $"arranger"; $"engineer"; $"DJ-mix"; $"mix"].
(** Several genres, separated by NULs, none of which is a number or another short form. *)
Definition plain_genre (g : str) : Prop := 3 < lenN (utf8_enc g) /\ ~ In 0 g /\ hd 0 g <> 40.
Fixpoint nul_joined (l : list str) : str := match l with [] => [] | [s] => s | s :: l' => s ++ [0] ++ nul_joined l' end.

Inductive canonical (custom : provider) : frame -> Prop :=
| can_text : forall id s, In id MULTI_TEXT -> canonical custom (text_frame id s)
| can_single : forall id s, In id SINGLE_TEXT -> ~ In 0 s -> canonical custom (text_frame id s)
| can_genres : forall l, l <> [] -> Forall plain_genre l -> canonical custom (text_frame ($"TCON") (nul_joined l))
| can_number : forall id n, In id [$"TRCK"; $"TPOS"] -> n <= U32_MAX -> canonical custom (text_frame id (to_dec n))
| can_pair : forall id n m, In id [$"TRCK"; $"TPOS"] -> n <= U32_MAX -> m <= U32_MAX ->
    canonical custom (text_frame id (to_dec n ++ $"/" ++ to_dec m))
| can_flag : forall b : bool, canonical custom (text_frame ($"TCMP") (if b then $"1" else $"0"))
| can_time : forall id d, In id [$"TDRC"; $"TDOR"] -> ts_verify d = Ok tt -> canonical custom (time_frame id d)
| can_user : forall d s, In d MULTI_USER -> canonical custom (user_text_frame d s)
| can_gain : forall d s, In d GAINS -> ~ In 0 s -> canonical custom (user_text_frame d s)
| can_advisory : forall n, n < 3 -> canonical custom (user_text_frame ($"ITUNESADVISORY") (to_dec n))
| can_comment : forall lang d s, (d = [] \/ ~ In 0 s) -> canonical custom (comment_frame lang d s)
| can_unsync : forall lang d s, (d = [] \/ ~ In 0 s) -> canonical custom (unsync_frame lang d s)
| can_url : forall id s, In id URLS -> canonical custom (url_frame id s)
| can_recording : forall s, Forall (fun c => 0 < c < 128) s -> canonical custom (ufid_frame MUSICBRAINZ s)
| can_rating : forall email p st n, dispatch custom email = Some p -> convert_raw p Id3v2 (rate p Id3v2 st) = st -> ~ In 124 email -> n <= U64_MAX ->
    canonical custom (FPopm (new_header ($"POPM")) email (rate p Id3v2 st) n)
| can_people : forall l, l <> [] -> Forall (fun p => In (fst p) ROLES) l -> canonical custom (tipl_frame l).

(** Frames a Tag has no place for; they are kept aside. *)
Definition is_kept (custom : provider) (f : frame) : Prop :=
  match f with
  | FBin _ _ | FRva2 _ _ _ | FOwne _ _ _ _ _ | FEtco _ _ _ | FPriv _ _ _ | FChap _ _ _ _ _ | FCtoc _ _ _ _ _ _ => True
  | FUserText _ _ d _ => d = [] \/ from_key Id3v2 d = None
  | FUserUrl _ _ d _ => d = [] \/ length (utf8_enc d) = 4%nat \/ from_key Id3v2 d = None
  | FText _ _ _ | FUrl _ _ | FTime _ _ _ => from_key Id3v2 (f_name f) = None
  | FUfid _ o _ => o <> MUSICBRAINZ
  | FPopm _ email _ _ => dispatch custom email = None
  | FKeyValue _ _ l => f_name f <> $"TIPL" \/ (l <> [] /\ Forall (fun p => ~ In (fst p) ROLES) l)
  | FComment _ _ _ _ _ | FUnsync _ _ _ _ _ | FPicture _ _ _ => False
  end.
Definition converts (custom : provider) (f : frame) : Prop :=
  canonical custom f \/ is_kept custom f \/ exists p, f = picture_frame p.

(** ** The items of a Tag and the frame that should carry them. *)
Definition TEXT_OF : list (item_key * str) :=
  [(KAlbumTitle, $"TALB"); (KSetSubtitle, $"TSST"); (KContentGroup, $"TIT1"); (KTrackTitle, $"TIT2"); (KTrackSubtitle, $"TIT3");
   (KOriginalAlbumTitle, $"TOAL"); (KOriginalArtist, $"TOPE"); (KOriginalLyricist, $"TOLY"); (KAlbumArtist, $"TPE2");
   (KTrackArtist, $"TPE1"); (KLyricist, $"TEXT"); (KComposer, $"TCOM"); (KConductor, $"TPE3"); (KPublisher, $"TPUB");
   (KInternetRadioStationName, $"TRSN"); (KInternetRadioStationOwner, $"TRSO"); (KRemixer, $"TPE4"); (KMovement, $"MVNM");
   (KFileOwner, $"TOWN"); (KMood, $"TMOO"); (KCopyrightMessage, $"TCOP"); (KLanguage, $"TLAN"); (KAppleId3v2ContentGroup, $"GRP1")].
Definition SINGLE_OF : list (item_key * str) :=
  [(KAlbumTitleSortOrder, $"TSOA"); (KAlbumArtistSortOrder, $"TSO2"); (KTrackTitleSortOrder, $"TSOT"); (KTrackArtistSortOrder, $"TSOP");
   (KComposerSortOrder, $"TSOC"); (KReleaseDate, $"TDRL"); (KIsrc, $"TSRC"); (KTaggingTime, $"TDTG"); (KLength, $"TLEN");
   (KOriginalFileName, $"TOFN"); (KOriginalMediaType, $"TMED"); (KEncodedBy, $"TENC"); (KEncoderSettings, $"TSSE");
   (KEncodingTime, $"TDEN"); (KInitialKey, $"TKEY"); (KIntegerBpm, $"TBPM"); (KPodcastDescription, $"TDES");
   (KPodcastSeriesCategory, $"TCAT"); (KPodcastGlobalUniqueId, $"TGID"); (KPodcastKeywords, $"TKWD")].
Definition USER_OF : list (item_key * str) :=
  [(KAlbumArtists, $"ALBUMARTISTS"); (KTrackArtists, $"ARTISTS"); (KDirector, $"DIRECTOR"); (KBarcode, $"BARCODE");
   (KAcoustId, $"Acoustid Id"); (KAcoustIdFingerprint, $"Acoustid Fingerprint"); (KCatalogNumber, $"CATALOGNUMBER");
   (KReleaseCountry, $"MusicBrainz Album Release Country"); (KMusicBrainzArtistId, $"MusicBrainz Artist Id");
   (KMusicBrainzReleaseArtistId, $"MusicBrainz Album Artist Id"); (KMusicBrainzWorkId, $"MusicBrainz Work Id");
   (KMusicBrainzReleaseType, $"MusicBrainz Album Type")].
Definition GAIN_OF : list (item_key * str) :=
  [(KReplayGainAlbumGain, $"REPLAYGAIN_ALBUM_GAIN"); (KReplayGainAlbumPeak, $"REPLAYGAIN_ALBUM_PEAK");
   (KReplayGainTrackGain, $"REPLAYGAIN_TRACK_GAIN"); (KReplayGainTrackPeak, $"REPLAYGAIN_TRACK_PEAK")].
Definition URL_OF : list (item_key * str) :=
  [(KAudioFileUrl, $"WOAF"); (KAudioSourceUrl, $"WOAS"); (KCommercialInformationUrl, $"WCOM"); (KCopyrightUrl, $"WCOP");
   (KTrackArtistUrl, $"WOAR"); (KRadioStationUrl, $"WORS"); (KPaymentUrl, $"WPAY"); (KPublisherUrl, $"WPUB"); (KPodcastUrl, $"WFED")].
Definition ROLE_OF : list (item_key * str) :=
  [(KProducer, $"producer"); (KArranger, $"arranger"); (KEngineer, $"engineer"); (KMixDj, $"DJ-mix"); (KMixEngineer, $"mix")].
Definition PAIR_OF : list (item_key * item_key * str) := [(KTrackNumber, KTrackTotal, $"TRCK"); (KDiscNumber, KDiscTotal, $"TPOS")].
Definition DATE_OF : list (item_key * str) := [(KRecordingDate, $"TDRC"); (KOriginalReleaseDate, $"TDOR")].
Definition no_nul (s : str) : Prop := ~ In 0 s.
Definition txt (k : item_key) (s : str) : tag_item := new_item k (VText s).

Inductive carries (custom : provider) : list tag_item -> frame -> Prop :=
| car_text : forall k id l, In (k, id) TEXT_OF -> l <> [] -> Forall no_nul l -> carries custom (map (txt k) l) (text_frame id (nul_joined l))
| car_single : forall k id s, In (k, id) SINGLE_OF -> no_nul s -> carries custom [txt k s] (text_frame id s)
| car_genres : forall l, l <> [] -> Forall plain_genre l -> carries custom (map (txt KGenre) l) (text_frame ($"TCON") (nul_joined l))
| car_number : forall k k' id n, In (k, k', id) PAIR_OF -> n <= U32_MAX -> carries custom [txt k (to_dec n)] (text_frame id (to_dec n))
| car_pair : forall k k' id n m, In (k, k', id) PAIR_OF -> n <= U32_MAX -> m <= U32_MAX ->
    carries custom [txt k (to_dec n); txt k' (to_dec m)] (text_frame id (to_dec n ++ $"/" ++ to_dec m))
| car_flag : forall b : bool, carries custom [txt KFlagCompilation (if b then $"1" else $"0")] (text_frame ($"TCMP") (if b then $"1" else $"0"))
| car_time : forall k id d, In (k, id) DATE_OF -> ts_verify d = Ok tt -> carries custom [txt k (ts_display d)] (time_frame id d)
| car_user : forall k d l, In (k, d) USER_OF -> l <> [] -> Forall no_nul l -> carries custom (map (txt k) l) (user_text_frame d (nul_joined l))
| car_gain : forall k d s, In (k, d) GAIN_OF -> no_nul s -> carries custom [txt k s] (user_text_frame d s)
| car_advisory : forall n, n < 3 -> carries custom [txt KParentalAdvisory (to_dec n)] (user_text_frame ($"ITUNESADVISORY") (to_dec n))
| car_comment : forall lang d s, no_nul s -> carries custom [mkItem lang d KComment (VText s)] (comment_frame lang d s)
| car_unsync : forall lang d s, no_nul s -> carries custom [mkItem lang d KUnsyncLyrics (VText s)] (unsync_frame lang d s)
| car_url : forall k id s, In (k, id) URL_OF -> carries custom [new_item k (VLocator s)] (url_frame id s)
| car_recording : forall s, Forall (fun c => 0 < c < 128) s -> carries custom [txt KMusicBrainzRecordingId s] (ufid_frame MUSICBRAINZ s)
| car_rating : forall email p st n, dispatch custom email = Some p -> convert_raw p Id3v2 (rate p Id3v2 st) = st -> ~ In 124 email -> n <= U64_MAX ->
    carries custom [txt KPopularimeter (email ++ $"|" ++ to_dec (stars st) ++ $"|" ++ to_dec n)] (FPopm (new_header ($"POPM")) email (rate p Id3v2 st) n)
| car_people : forall l, l <> [] -> Forall (fun p => In (fst p) ROLE_OF) l ->
    carries custom (map (fun p => txt (fst (fst p)) (snd p)) l) (tipl_frame (map (fun p => (snd (fst p), snd p)) l)).

(** At most one list of people. *)
Definition one_people (l : list frame) : Prop := (length (filter (has_name ($"TIPL")) l) <= 1)%nat.
(** Keys that have a name in ID3v2, which a Tag for ID3v2 accepts, and for which no frame is ever made. *)
Definition LOST : list item_key :=
  [KMovementNumber; KMovementTotal; KMusicBrainzTrackId; KMusicBrainzReleaseId; KMusicBrainzReleaseGroupId; KColor].
(** Keys without a name of their own, for which a frame is made. *)
Definition HIDDEN : list item_key := [KProducer; KArranger; KEngineer; KMixDj; KMixEngineer; KMusicBrainzRecordingId].
(** Keys that share a frame with another key, which is the one that comes back. *)
Definition SHARED : list (item_key * item_key) := [(KWriter, KLyricist); (KLabel, KPublisher); (KEncoderSoftware, KEncoderSettings)].
(** Keys whose frame fails the check that is made before saving. *)
Definition UNSAVED : list item_key := [KWork; KFlagPodcast].
Definition is_locator (i : tag_item) : bool := match it_value i with VLocator _ => true | _ => false end.
Definition has_text (i : tag_item) : Prop := exists s, it_value i = VText s.
