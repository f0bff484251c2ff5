(** Model of lofty/src/tag/item.rs: the keys and the mapping tables, transcribed by tools/gen_itemkey.py. *)
From Verif Require Export Base Str TextModel TagType.

(** lines 548-968 *)
Inductive item_key : Set :=
| KAlbumTitle | KSetSubtitle | KShowName | KContentGroup | KTrackTitle | KTrackSubtitle
| KOriginalAlbumTitle | KOriginalArtist | KOriginalLyricist | KAlbumTitleSortOrder | KAlbumArtistSortOrder | KTrackTitleSortOrder
| KTrackArtistSortOrder | KShowNameSortOrder | KComposerSortOrder | KAlbumArtist | KAlbumArtists | KTrackArtist
| KTrackArtists | KArranger | KWriter | KComposer | KConductor | KDirector
| KEngineer | KLyricist | KMixDj | KMixEngineer | KPerformer | KProducer
| KPublisher | KLabel | KInternetRadioStationName | KInternetRadioStationOwner | KRemixer | KDiscNumber
| KDiscTotal | KTrackNumber | KTrackTotal | KPopularimeter | KParentalAdvisory | KRecordingDate
| KYear | KReleaseDate | KOriginalReleaseDate | KIsrc | KBarcode | KAcoustId
| KAcoustIdFingerprint | KCatalogNumber | KWork | KMovement | KMovementNumber | KMovementTotal
| KReleaseCountry | KMusicBrainzRecordingId | KMusicBrainzTrackId | KMusicBrainzReleaseId | KMusicBrainzReleaseGroupId | KMusicBrainzArtistId
| KMusicBrainzReleaseArtistId | KMusicBrainzWorkId | KMusicBrainzReleaseType | KFlagCompilation | KFlagPodcast | KFileOwner
| KTaggingTime | KLength | KOriginalFileName | KOriginalMediaType | KEncodedBy | KEncoderSoftware
| KEncoderSettings | KEncodingTime | KReplayGainAlbumGain | KReplayGainAlbumPeak | KReplayGainTrackGain | KReplayGainTrackPeak
| KR128TrackGain | KR128AlbumGain | KAudioFileUrl | KAudioSourceUrl | KCommercialInformationUrl | KCopyrightUrl
| KTrackArtistUrl | KRadioStationUrl | KPaymentUrl | KPublisherUrl | KGenre | KInitialKey
| KColor | KMood | KBpm | KIntegerBpm | KCopyrightMessage | KLicense
| KPodcastDescription | KPodcastSeriesCategory | KPodcastUrl | KPodcastGlobalUniqueId | KPodcastKeywords | KComment
| KDescription | KLanguage | KScript | KLyrics | KUnsyncLyrics | KAppleXid
| KAppleId3v2ContentGroup.
Definition ik_index (k : item_key) : N :=
  match k with
  | KAlbumTitle => 0
  | KSetSubtitle => 1
  | KShowName => 2
  | KContentGroup => 3
  | KTrackTitle => 4
  | KTrackSubtitle => 5
  | KOriginalAlbumTitle => 6
  | KOriginalArtist => 7
  | KOriginalLyricist => 8
  | KAlbumTitleSortOrder => 9
  | KAlbumArtistSortOrder => 10
  | KTrackTitleSortOrder => 11
  | KTrackArtistSortOrder => 12
  | KShowNameSortOrder => 13
  | KComposerSortOrder => 14
  | KAlbumArtist => 15
  | KAlbumArtists => 16
  | KTrackArtist => 17
  | KTrackArtists => 18
  | KArranger => 19
  | KWriter => 20
  | KComposer => 21
  | KConductor => 22
  | KDirector => 23
  | KEngineer => 24
  | KLyricist => 25
  | KMixDj => 26
  | KMixEngineer => 27
  | KPerformer => 28
  | KProducer => 29
  | KPublisher => 30
  | KLabel => 31
  | KInternetRadioStationName => 32
  | KInternetRadioStationOwner => 33
  | KRemixer => 34
  | KDiscNumber => 35
  | KDiscTotal => 36
  | KTrackNumber => 37
  | KTrackTotal => 38
  | KPopularimeter => 39
  | KParentalAdvisory => 40
  | KRecordingDate => 41
  | KYear => 42
  | KReleaseDate => 43
  | KOriginalReleaseDate => 44
  | KIsrc => 45
  | KBarcode => 46
  | KAcoustId => 47
  | KAcoustIdFingerprint => 48
  | KCatalogNumber => 49
  | KWork => 50
  | KMovement => 51
  | KMovementNumber => 52
  | KMovementTotal => 53
  | KReleaseCountry => 54
  | KMusicBrainzRecordingId => 55
  | KMusicBrainzTrackId => 56
  | KMusicBrainzReleaseId => 57
  | KMusicBrainzReleaseGroupId => 58
  | KMusicBrainzArtistId => 59
  | KMusicBrainzReleaseArtistId => 60
  | KMusicBrainzWorkId => 61
  | KMusicBrainzReleaseType => 62
  | KFlagCompilation => 63
  | KFlagPodcast => 64
  | KFileOwner => 65
  | KTaggingTime => 66
  | KLength => 67
  | KOriginalFileName => 68
  | KOriginalMediaType => 69
  | KEncodedBy => 70
  | KEncoderSoftware => 71
  | KEncoderSettings => 72
  | KEncodingTime => 73
  | KReplayGainAlbumGain => 74
  | KReplayGainAlbumPeak => 75
  | KReplayGainTrackGain => 76
  | KReplayGainTrackPeak => 77
  | KR128TrackGain => 78
  | KR128AlbumGain => 79
  | KAudioFileUrl => 80
  | KAudioSourceUrl => 81
  | KCommercialInformationUrl => 82
  | KCopyrightUrl => 83
  | KTrackArtistUrl => 84
  | KRadioStationUrl => 85
  | KPaymentUrl => 86
  | KPublisherUrl => 87
  | KGenre => 88
  | KInitialKey => 89
  | KColor => 90
  | KMood => 91
  | KBpm => 92
  | KIntegerBpm => 93
  | KCopyrightMessage => 94
  | KLicense => 95
  | KPodcastDescription => 96
  | KPodcastSeriesCategory => 97
  | KPodcastUrl => 98
  | KPodcastGlobalUniqueId => 99
  | KPodcastKeywords => 100
  | KComment => 101
  | KDescription => 102
  | KLanguage => 103
  | KScript => 104
  | KLyrics => 105
  | KUnsyncLyrics => 106
  | KAppleXid => 107
  | KAppleId3v2ContentGroup => 108
  end.
Definition all_keys : list item_key :=
  [KAlbumTitle; KSetSubtitle; KShowName; KContentGroup; KTrackTitle; KTrackSubtitle;
   KOriginalAlbumTitle; KOriginalArtist; KOriginalLyricist; KAlbumTitleSortOrder; KAlbumArtistSortOrder; KTrackTitleSortOrder;
   KTrackArtistSortOrder; KShowNameSortOrder; KComposerSortOrder; KAlbumArtist; KAlbumArtists; KTrackArtist;
   KTrackArtists; KArranger; KWriter; KComposer; KConductor; KDirector;
   KEngineer; KLyricist; KMixDj; KMixEngineer; KPerformer; KProducer;
   KPublisher; KLabel; KInternetRadioStationName; KInternetRadioStationOwner; KRemixer; KDiscNumber;
   KDiscTotal; KTrackNumber; KTrackTotal; KPopularimeter; KParentalAdvisory; KRecordingDate;
   KYear; KReleaseDate; KOriginalReleaseDate; KIsrc; KBarcode; KAcoustId;
   KAcoustIdFingerprint; KCatalogNumber; KWork; KMovement; KMovementNumber; KMovementTotal;
   KReleaseCountry; KMusicBrainzRecordingId; KMusicBrainzTrackId; KMusicBrainzReleaseId; KMusicBrainzReleaseGroupId; KMusicBrainzArtistId;
   KMusicBrainzReleaseArtistId; KMusicBrainzWorkId; KMusicBrainzReleaseType; KFlagCompilation; KFlagPodcast; KFileOwner;
   KTaggingTime; KLength; KOriginalFileName; KOriginalMediaType; KEncodedBy; KEncoderSoftware;
   KEncoderSettings; KEncodingTime; KReplayGainAlbumGain; KReplayGainAlbumPeak; KReplayGainTrackGain; KReplayGainTrackPeak;
   KR128TrackGain; KR128AlbumGain; KAudioFileUrl; KAudioSourceUrl; KCommercialInformationUrl; KCopyrightUrl;
   KTrackArtistUrl; KRadioStationUrl; KPaymentUrl; KPublisherUrl; KGenre; KInitialKey;
   KColor; KMood; KBpm; KIntegerBpm; KCopyrightMessage; KLicense;
   KPodcastDescription; KPodcastSeriesCategory; KPodcastUrl; KPodcastGlobalUniqueId; KPodcastKeywords; KComment;
   KDescription; KLanguage; KScript; KLyrics; KUnsyncLyrics; KAppleXid;
   KAppleId3v2ContentGroup].
Definition ik_eqb (a b : item_key) : bool := ik_index a =? ik_index b.

(** One row of [gen_map!]: its format keys and its variants. *)
Definition row : Type := (list str * list item_key)%type.

(** lines 81-88 *)
Definition aiff_text_map : list row :=
  [([$"NAME"], [KTrackTitle]);
   ([$"AUTH"], [KTrackArtist]);
   ([$"(c) "], [KCopyrightMessage]);
   ([$"COMM"; $"ANNO"], [KComment])].

(** lines 90-161 *)
Definition ape_map : list row :=
  [([$"Album"], [KAlbumTitle]);
   ([$"DiscSubtitle"], [KSetSubtitle]);
   ([$"Grouping"], [KContentGroup]);
   ([$"Title"], [KTrackTitle]);
   ([$"Subtitle"], [KTrackSubtitle]);
   ([$"WORKTITLE"], [KWork]);
   ([$"MOVEMENTNAME"], [KMovement]);
   ([$"MOVEMENT"], [KMovementNumber]);
   ([$"MOVEMENTTOTAL"], [KMovementTotal]);
   ([$"RELEASECOUNTRY"], [KReleaseCountry]);
   ([$"ALBUMSORT"], [KAlbumTitleSortOrder]);
   ([$"ALBUMARTISTSORT"], [KAlbumArtistSortOrder]);
   ([$"TITLESORT"], [KTrackTitleSortOrder]);
   ([$"ARTISTSORT"], [KTrackArtistSortOrder]);
   ([$"Album Artist"; $"ALBUMARTIST"], [KAlbumArtist]);
   ([$"ALBUMARTISTS"; $"ALBUM ARTISTS"], [KAlbumArtists]);
   ([$"Artist"], [KTrackArtist]);
   ([$"Artists"], [KTrackArtists]);
   ([$"Arranger"], [KArranger]);
   ([$"Writer"], [KWriter]);
   ([$"Composer"], [KComposer]);
   ([$"Conductor"], [KConductor]);
   ([$"Director"], [KDirector]);
   ([$"Engineer"], [KEngineer]);
   ([$"Lyricist"], [KLyricist]);
   ([$"DjMixer"], [KMixDj]);
   ([$"Mixer"], [KMixEngineer]);
   ([$"Performer"], [KPerformer]);
   ([$"Producer"], [KProducer]);
   ([$"Label"], [KLabel]);
   ([$"MixArtist"], [KRemixer]);
   ([$"Disc"], [KDiscNumber]);
   ([$"Disc"], [KDiscTotal]);
   ([$"Track"], [KTrackNumber]);
   ([$"Track"], [KTrackTotal]);
   ([$"Year"], [KRecordingDate; KYear]);
   ([$"ORIGINALYEAR"], [KOriginalReleaseDate]);
   ([$"RELEASEDATE"], [KReleaseDate]);
   ([$"ISRC"], [KIsrc]);
   ([$"Barcode"], [KBarcode]);
   ([$"ACOUSTID_ID"], [KAcoustId]);
   ([$"ACOUSTID_FINGERPRINT"], [KAcoustIdFingerprint]);
   ([$"CatalogNumber"], [KCatalogNumber]);
   ([$"Compilation"], [KFlagCompilation]);
   ([$"Media"], [KOriginalMediaType]);
   ([$"EncodedBy"], [KEncodedBy]);
   ([$"REPLAYGAIN_ALBUM_GAIN"], [KReplayGainAlbumGain]);
   ([$"REPLAYGAIN_ALBUM_PEAK"], [KReplayGainAlbumPeak]);
   ([$"REPLAYGAIN_TRACK_GAIN"], [KReplayGainTrackGain]);
   ([$"REPLAYGAIN_TRACK_PEAK"], [KReplayGainTrackPeak]);
   ([$"Genre"], [KGenre]);
   ([$"Color"], [KColor]);
   ([$"Mood"], [KMood]);
   ([$"Copyright"], [KCopyrightMessage]);
   ([$"Comment"], [KComment]);
   ([$"language"], [KLanguage]);
   ([$"Script"], [KScript]);
   ([$"Lyrics"], [KLyrics]);
   ([$"UnsyncedLyrics"], [KUnsyncLyrics]);
   ([$"MUSICBRAINZ_TRACKID"], [KMusicBrainzRecordingId]);
   ([$"MUSICBRAINZ_RELEASETRACKID"], [KMusicBrainzTrackId]);
   ([$"MUSICBRAINZ_ALBUMID"], [KMusicBrainzReleaseId]);
   ([$"MUSICBRAINZ_RELEASEGROUPID"], [KMusicBrainzReleaseGroupId]);
   ([$"MUSICBRAINZ_ARTISTID"], [KMusicBrainzArtistId]);
   ([$"MUSICBRAINZ_ALBUMARTISTID"], [KMusicBrainzReleaseArtistId]);
   ([$"MUSICBRAINZ_WORKID"], [KMusicBrainzWorkId]);
   ([$"MUSICBRAINZ_ALBUMTYPE"], [KMusicBrainzReleaseType])].

(** lines 163-260 *)
Definition id3v2_map : list row :=
  [([$"TALB"], [KAlbumTitle]);
   ([$"TSST"], [KSetSubtitle]);
   ([$"TIT1"], [KContentGroup]);
   ([$"GRP1"], [KAppleId3v2ContentGroup]);
   ([$"TIT2"], [KTrackTitle]);
   ([$"TIT3"], [KTrackSubtitle]);
   ([$"TOAL"], [KOriginalAlbumTitle]);
   ([$"TOPE"], [KOriginalArtist]);
   ([$"TOLY"], [KOriginalLyricist]);
   ([$"TSOA"], [KAlbumTitleSortOrder]);
   ([$"TSO2"], [KAlbumArtistSortOrder]);
   ([$"TSOT"], [KTrackTitleSortOrder]);
   ([$"TSOP"], [KTrackArtistSortOrder]);
   ([$"TSOC"], [KComposerSortOrder]);
   ([$"TPE2"; $"ALBUMARTIST"; $"ALBUM ARTIST"], [KAlbumArtist]);
   ([$"ALBUMARTISTS"; $"ALBUM ARTISTS"], [KAlbumArtists]);
   ([$"TPE1"], [KTrackArtist]);
   ([$"ARTISTS"], [KTrackArtists]);
   ([$"TEXT"], [KWriter]);
   ([$"TCOM"], [KComposer]);
   ([$"TPE3"], [KConductor]);
   ([$"DIRECTOR"], [KDirector]);
   ([$"TEXT"], [KLyricist]);
   ([$"TPUB"], [KPublisher; KLabel]);
   ([$"TRSN"], [KInternetRadioStationName]);
   ([$"TRSO"], [KInternetRadioStationOwner]);
   ([$"TPE4"], [KRemixer]);
   ([$"TPOS"], [KDiscNumber]);
   ([$"TPOS"], [KDiscTotal]);
   ([$"TRCK"], [KTrackNumber]);
   ([$"TRCK"], [KTrackTotal]);
   ([$"POPM"], [KPopularimeter]);
   ([$"ITUNESADVISORY"], [KParentalAdvisory]);
   ([$"TDRC"], [KRecordingDate]);
   ([$"TDOR"], [KOriginalReleaseDate]);
   ([$"TSRC"], [KIsrc]);
   ([$"BARCODE"], [KBarcode]);
   ([$"Acoustid Id"], [KAcoustId]);
   ([$"Acoustid Fingerprint"], [KAcoustIdFingerprint]);
   ([$"CATALOGNUMBER"], [KCatalogNumber]);
   ([$"WORK"], [KWork]);
   ([$"MVNM"], [KMovement]);
   ([$"MVIN"], [KMovementNumber]);
   ([$"MVIN"], [KMovementTotal]);
   ([$"TCMP"], [KFlagCompilation]);
   ([$"PCST"], [KFlagPodcast]);
   ([$"TOWN"], [KFileOwner]);
   ([$"TDTG"], [KTaggingTime]);
   ([$"TLEN"], [KLength]);
   ([$"TOFN"], [KOriginalFileName]);
   ([$"TMED"], [KOriginalMediaType]);
   ([$"TENC"], [KEncodedBy]);
   ([$"TSSE"], [KEncoderSoftware]);
   ([$"TSSE"], [KEncoderSettings]);
   ([$"TDEN"], [KEncodingTime]);
   ([$"REPLAYGAIN_ALBUM_GAIN"], [KReplayGainAlbumGain]);
   ([$"REPLAYGAIN_ALBUM_PEAK"], [KReplayGainAlbumPeak]);
   ([$"REPLAYGAIN_TRACK_GAIN"], [KReplayGainTrackGain]);
   ([$"REPLAYGAIN_TRACK_PEAK"], [KReplayGainTrackPeak]);
   ([$"WOAF"], [KAudioFileUrl]);
   ([$"WOAS"], [KAudioSourceUrl]);
   ([$"WCOM"], [KCommercialInformationUrl]);
   ([$"WCOP"], [KCopyrightUrl]);
   ([$"WOAR"], [KTrackArtistUrl]);
   ([$"WORS"], [KRadioStationUrl]);
   ([$"WPAY"], [KPaymentUrl]);
   ([$"WPUB"], [KPublisherUrl]);
   ([$"TCON"], [KGenre]);
   ([$"TKEY"], [KInitialKey]);
   ([$"COLOR"], [KColor]);
   ([$"TMOO"], [KMood]);
   ([$"TBPM"], [KIntegerBpm]);
   ([$"TCOP"], [KCopyrightMessage]);
   ([$"TDES"], [KPodcastDescription]);
   ([$"TCAT"], [KPodcastSeriesCategory]);
   ([$"WFED"], [KPodcastUrl]);
   ([$"TDRL"], [KReleaseDate]);
   ([$"TGID"], [KPodcastGlobalUniqueId]);
   ([$"TKWD"], [KPodcastKeywords]);
   ([$"COMM"], [KComment]);
   ([$"TLAN"], [KLanguage]);
   ([$"USLT"], [KUnsyncLyrics]);
   ([$"MusicBrainz Release Track Id"], [KMusicBrainzTrackId]);
   ([$"MusicBrainz Album Id"], [KMusicBrainzReleaseId]);
   ([$"MusicBrainz Release Group Id"], [KMusicBrainzReleaseGroupId]);
   ([$"MusicBrainz Artist Id"], [KMusicBrainzArtistId]);
   ([$"MusicBrainz Album Artist Id"], [KMusicBrainzReleaseArtistId]);
   ([$"MusicBrainz Work Id"], [KMusicBrainzWorkId]);
   ([$"MusicBrainz Album Type"], [KMusicBrainzReleaseType]);
   ([$"MusicBrainz Album Release Country"], [KReleaseCountry])].

(** lines 262-348 *)
Definition ilst_map : list row :=
  [([(169 :: $"alb")], [KAlbumTitle]);
   ([$"----:com.apple.iTunes:DISCSUBTITLE"], [KSetSubtitle]);
   ([$"tvsh"], [KShowName]);
   ([(169 :: $"grp")], [KContentGroup]);
   ([(169 :: $"nam")], [KTrackTitle]);
   ([$"----:com.apple.iTunes:SUBTITLE"], [KTrackSubtitle]);
   ([(169 :: $"wrk")], [KWork]);
   ([(169 :: $"mvn")], [KMovement]);
   ([(169 :: $"mvi")], [KMovementNumber]);
   ([(169 :: $"mvc")], [KMovementTotal]);
   ([$"soal"], [KAlbumTitleSortOrder]);
   ([$"soaa"], [KAlbumArtistSortOrder]);
   ([$"sonm"], [KTrackTitleSortOrder]);
   ([$"soar"], [KTrackArtistSortOrder]);
   ([$"sosn"], [KShowNameSortOrder]);
   ([$"soco"], [KComposerSortOrder]);
   ([$"aART"], [KAlbumArtist]);
   ([$"----:com.apple.iTunes:ALBUMARTISTS"], [KAlbumArtists]);
   ([(169 :: $"ART")], [KTrackArtist]);
   ([$"----:com.apple.iTunes:ARTISTS"], [KTrackArtists]);
   ([(169 :: $"wrt")], [KComposer]);
   ([(169 :: $"dir")], [KDirector]);
   ([$"----:com.apple.iTunes:CONDUCTOR"], [KConductor]);
   ([$"----:com.apple.iTunes:ENGINEER"], [KEngineer]);
   ([$"----:com.apple.iTunes:LYRICIST"], [KLyricist]);
   ([$"----:com.apple.iTunes:DJMIXER"], [KMixDj]);
   ([$"----:com.apple.iTunes:MIXER"], [KMixEngineer]);
   ([$"----:com.apple.iTunes:PRODUCER"], [KProducer]);
   ([$"----:com.apple.iTunes:LABEL"], [KLabel]);
   ([$"----:com.apple.iTunes:REMIXER"], [KRemixer]);
   ([$"disk"], [KDiscNumber]);
   ([$"disk"], [KDiscTotal]);
   ([$"trkn"], [KTrackNumber]);
   ([$"trkn"], [KTrackTotal]);
   ([$"rate"], [KPopularimeter]);
   ([$"rtng"], [KParentalAdvisory]);
   ([(169 :: $"day")], [KRecordingDate]);
   ([$"----:com.apple.iTunes:ORIGINALDATE"], [KOriginalReleaseDate]);
   ([$"----:com.apple.iTunes:RELEASEDATE"], [KReleaseDate]);
   ([$"----:com.apple.iTunes:ISRC"], [KIsrc]);
   ([$"----:com.apple.iTunes:BARCODE"], [KBarcode]);
   ([$"----:com.apple.iTunes:Acoustid Id"], [KAcoustId]);
   ([$"----:com.apple.iTunes:Acoustid Fingerprint"], [KAcoustIdFingerprint]);
   ([$"----:com.apple.iTunes:CATALOGNUMBER"], [KCatalogNumber]);
   ([$"cpil"], [KFlagCompilation]);
   ([$"pcst"], [KFlagPodcast]);
   ([$"----:com.apple.iTunes:MEDIA"], [KOriginalMediaType]);
   ([(169 :: $"enc")], [KEncodedBy]);
   ([(169 :: $"too")], [KEncoderSoftware]);
   ([(169 :: $"gen")], [KGenre]);
   ([$"----:com.apple.iTunes:COLOR"], [KColor]);
   ([$"----:com.apple.iTunes:MOOD"], [KMood]);
   ([$"tmpo"], [KIntegerBpm]);
   ([$"----:com.apple.iTunes:BPM"], [KBpm]);
   ([$"----:com.apple.iTunes:initialkey"], [KInitialKey]);
   ([$"----:com.apple.iTunes:replaygain_album_gain"], [KReplayGainAlbumGain]);
   ([$"----:com.apple.iTunes:replaygain_album_peak"], [KReplayGainAlbumPeak]);
   ([$"----:com.apple.iTunes:replaygain_track_gain"], [KReplayGainTrackGain]);
   ([$"----:com.apple.iTunes:replaygain_track_peak"], [KReplayGainTrackPeak]);
   ([$"cprt"], [KCopyrightMessage]);
   ([$"----:com.apple.iTunes:LICENSE"], [KLicense]);
   ([$"ldes"], [KPodcastDescription]);
   ([$"catg"], [KPodcastSeriesCategory]);
   ([$"purl"], [KPodcastUrl]);
   ([$"egid"], [KPodcastGlobalUniqueId]);
   ([$"keyw"], [KPodcastKeywords]);
   ([(169 :: $"cmt")], [KComment]);
   ([$"desc"], [KDescription]);
   ([$"----:com.apple.iTunes:LANGUAGE"], [KLanguage]);
   ([$"----:com.apple.iTunes:SCRIPT"], [KScript]);
   ([(169 :: $"lyr")], [KLyrics; KUnsyncLyrics]);
   ([$"xid "], [KAppleXid]);
   ([$"----:com.apple.iTunes:MusicBrainz Track Id"], [KMusicBrainzRecordingId]);
   ([$"----:com.apple.iTunes:MusicBrainz Release Track Id"], [KMusicBrainzTrackId]);
   ([$"----:com.apple.iTunes:MusicBrainz Album Id"], [KMusicBrainzReleaseId]);
   ([$"----:com.apple.iTunes:MusicBrainz Release Group Id"], [KMusicBrainzReleaseGroupId]);
   ([$"----:com.apple.iTunes:MusicBrainz Artist Id"], [KMusicBrainzArtistId]);
   ([$"----:com.apple.iTunes:MusicBrainz Album Artist Id"], [KMusicBrainzReleaseArtistId]);
   ([$"----:com.apple.iTunes:MusicBrainz Work Id"], [KMusicBrainzWorkId]);
   ([$"----:com.apple.iTunes:MusicBrainz Album Type"], [KMusicBrainzReleaseType]);
   ([$"----:com.apple.iTunes:MusicBrainz Album Release Country"], [KReleaseCountry])].

(** lines 350-372 *)
Definition riff_info_map : list row :=
  [([$"IPRD"], [KAlbumTitle]);
   ([$"INAM"], [KTrackTitle]);
   ([$"IART"], [KTrackArtist]);
   ([$"IWRI"], [KWriter]);
   ([$"IMUS"], [KComposer]);
   ([$"IPRO"], [KProducer]);
   ([$"IPRT"; $"ITRK"], [KTrackNumber]);
   ([$"IFRM"], [KTrackTotal]);
   ([$"IRTD"], [KPopularimeter]);
   ([$"ICRD"], [KRecordingDate]);
   ([$"TLEN"], [KLength]);
   ([$"ISRF"], [KOriginalMediaType]);
   ([$"ITCH"], [KEncodedBy]);
   ([$"ISFT"], [KEncoderSoftware]);
   ([$"IGNR"], [KGenre]);
   ([$"ICOP"], [KCopyrightMessage]);
   ([$"ICMT"], [KComment]);
   ([$"ILNG"], [KLanguage]);
   ([$"ICNT"], [KReleaseCountry])].

(** lines 374-464 *)
Definition vorbis_map : list row :=
  [([$"ALBUM"], [KAlbumTitle]);
   ([$"DISCSUBTITLE"], [KSetSubtitle]);
   ([$"GROUPING"], [KContentGroup]);
   ([$"TITLE"], [KTrackTitle]);
   ([$"SUBTITLE"], [KTrackSubtitle]);
   ([$"WORK"], [KWork]);
   ([$"MOVEMENTNAME"], [KMovement]);
   ([$"MOVEMENT"], [KMovementNumber]);
   ([$"MOVEMENTTOTAL"], [KMovementTotal]);
   ([$"RELEASECOUNTRY"], [KReleaseCountry]);
   ([$"ALBUMSORT"], [KAlbumTitleSortOrder]);
   ([$"ALBUMARTISTSORT"], [KAlbumArtistSortOrder]);
   ([$"TITLESORT"], [KTrackTitleSortOrder]);
   ([$"ARTISTSORT"], [KTrackArtistSortOrder]);
   ([$"ALBUMARTIST"; $"ALBUM ARTIST"], [KAlbumArtist]);
   ([$"ALBUMARTISTS"; $"ALBUM ARTISTS"], [KAlbumArtists]);
   ([$"ARTIST"], [KTrackArtist]);
   ([$"ARTISTS"], [KTrackArtists]);
   ([$"ARRANGER"], [KArranger]);
   ([$"AUTHOR"; $"WRITER"], [KWriter]);
   ([$"COMPOSER"], [KComposer]);
   ([$"CONDUCTOR"], [KConductor]);
   ([$"DIRECTOR"], [KDirector]);
   ([$"ENGINEER"], [KEngineer]);
   ([$"LYRICIST"], [KLyricist]);
   ([$"DJMIXER"], [KMixDj]);
   ([$"MIXER"], [KMixEngineer]);
   ([$"PERFORMER"], [KPerformer]);
   ([$"PRODUCER"], [KProducer]);
   ([$"PUBLISHER"], [KPublisher]);
   ([$"LABEL"; $"ORGANIZATION"], [KLabel]);
   ([$"REMIXER"; $"MIXARTIST"], [KRemixer]);
   ([$"DISCNUMBER"], [KDiscNumber]);
   ([$"DISCTOTAL"; $"TOTALDISCS"], [KDiscTotal]);
   ([$"TRACKNUMBER"], [KTrackNumber]);
   ([$"TRACKTOTAL"; $"TOTALTRACKS"], [KTrackTotal]);
   ([$"RATING"], [KPopularimeter]);
   ([$"DATE"], [KRecordingDate]);
   ([$"YEAR"], [KYear]);
   ([$"ORIGINALDATE"; $"ORIGINALYEAR"], [KOriginalReleaseDate]);
   ([$"RELEASEDATE"], [KReleaseDate]);
   ([$"ISRC"], [KIsrc]);
   ([$"BARCODE"], [KBarcode]);
   ([$"ACOUSTID_ID"], [KAcoustId]);
   ([$"ACOUSTID_FINGERPRINT"], [KAcoustIdFingerprint]);
   ([$"CATALOGNUMBER"], [KCatalogNumber]);
   ([$"COMPILATION"], [KFlagCompilation]);
   ([$"MEDIA"], [KOriginalMediaType]);
   ([$"ENCODEDBY"; $"ENCODED-BY"; $"ENCODED_BY"], [KEncodedBy]);
   ([$"ENCODER"], [KEncoderSoftware]);
   ([$"ENCODING"; $"ENCODERSETTINGS"], [KEncoderSettings]);
   ([$"REPLAYGAIN_ALBUM_GAIN"], [KReplayGainAlbumGain]);
   ([$"REPLAYGAIN_ALBUM_PEAK"], [KReplayGainAlbumPeak]);
   ([$"REPLAYGAIN_TRACK_GAIN"], [KReplayGainTrackGain]);
   ([$"REPLAYGAIN_TRACK_PEAK"], [KReplayGainTrackPeak]);
   ([$"R128_TRACK_GAIN"], [KR128TrackGain]);
   ([$"R128_ALBUM_GAIN"], [KR128AlbumGain]);
   ([$"GENRE"], [KGenre]);
   ([$"COLOR"], [KColor]);
   ([$"MOOD"], [KMood]);
   ([$"BPM"], [KBpm]);
   ([$"INITIALKEY"; $"KEY"], [KInitialKey]);
   ([$"COPYRIGHT"], [KCopyrightMessage]);
   ([$"LICENSE"], [KLicense]);
   ([$"COMMENT"], [KComment]);
   ([$"DESCRIPTION"], [KDescription]);
   ([$"LANGUAGE"], [KLanguage]);
   ([$"SCRIPT"], [KScript]);
   ([$"LYRICS"], [KLyrics]);
   ([$"UNSYNCEDLYRICS"], [KUnsyncLyrics]);
   ([$"MUSICBRAINZ_TRACKID"], [KMusicBrainzRecordingId]);
   ([$"MUSICBRAINZ_RELEASETRACKID"], [KMusicBrainzTrackId]);
   ([$"MUSICBRAINZ_ALBUMID"], [KMusicBrainzReleaseId]);
   ([$"MUSICBRAINZ_RELEASEGROUPID"], [KMusicBrainzReleaseGroupId]);
   ([$"MUSICBRAINZ_ARTISTID"], [KMusicBrainzArtistId]);
   ([$"MUSICBRAINZ_ALBUMARTISTID"], [KMusicBrainzReleaseArtistId]);
   ([$"MUSICBRAINZ_WORKID"], [KMusicBrainzWorkId]);
   ([$"RELEASETYPE"], [KMusicBrainzReleaseType])].

(** lines 533-545: the table of a tag type; Id3v1 has none. *)
Definition table (tt : tag_type) : list row :=
  match tt with
  | AiffText => aiff_text_map | Ape => ape_map | Id3v2 => id3v2_map | Mp4Ilst => ilst_map
  | RiffInfo => riff_info_map | VorbisComments => vorbis_map | Id3v1 => []
  end.

(** [HashMap::insert] on an association list (newest first, one entry per key). *)
Fixpoint map_remove (s : str) (m : list (str * list item_key)) : list (str * list item_key) :=
  match m with
  | [] => []
  | (s', v) :: m' => if list_eqb s s' then map_remove s m' else (s', v) :: map_remove s m'
  end.
Definition map_insert (s : str) (v : list item_key) (m : list (str * list item_key)) := (s, v) :: map_remove s m.
(** lines 54-64: [INSTANCE] *)
Definition instance (t : list row) : list (str * list item_key) :=
  fold_left (fun m r => fold_left (fun m s => map_insert s (snd r) m) (fst r) m) t [].

(** line 65: [iter().find(..).map(|(_, v)| v[0])]. A HashMap is iterated in an unspecified order: [order] is the
    order in which the entries come. *)
Definition get_item_key (order : list (str * list item_key)) (s : str) : option item_key :=
  match find (fun e => eq_ignore_case (fst e) s) order with
  | Some (_, v) => hd_error v
  | None => None
  end.

(** lines 68-75: the first row that has the variant, and its first key. *)
Definition get_key (t : list row) (k : item_key) : option str :=
  match find (fun r => existsb (ik_eqb k) (snd r)) t with
  | Some (s :: _, _) => Some s
  | _ => None
  end.

(** lines 503-529; [from_key] for the order of [instance] (any order gives the same: C24). *)
Definition map_key (tt : tag_type) (k : item_key) : option str := get_key (table tt) k.
Definition from_key (tt : tag_type) (s : str) : option item_key := get_item_key (instance (table tt)) s.
