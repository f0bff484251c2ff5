done("C240","partial",["C240_replaced","C240_added","C240_picture_refuted","C240_nul_refuted","C240_number_refuted"],"Proved for non-empty texts not ending in NUL and pictures of the types MP4 knows without description: texts come back under the key their name reads as (UnsyncLyrics as Lyrics), flags as 0 or 1, numbers as decimals if above 0, the first valid advisory, pictures with type Other. Refuted: type and description of pictures, texts ending in NUL, numbers that are not decimals.")
done("C241","partial",["C241_mpeg","C241_aac","C241_date_refuted","C241_empty_refuted","C241_locator_refuted"],"Proved for groups of items that frames carry (texts non-empty without NUL, no locators, no release, tagging or encoding date) and pictures without NUL in the description. Refuted: a release date that is no date makes the whole file unreadable, an empty value after another is lost, locators are lost.")
done("C242","partial",["C242_block","C242_mpeg","C242_length_refuted","C242_genre_refuted","C242_track_refuted","C242_strict_refuted"],"Proved for Latin-1 texts: the first 30 characters (28 of the comment) up to a NUL, years up to 9999 (or the year of the recording date), track numbers from 1 to 255 and genres of the list come back. Refuted: longer texts, genres in another case or as a number, larger track numbers, strict reading without a year.")
done("C243","partial",["C243_wav","C243_aiff","C243_growth_refuted","C243_info_refuted","C243_size_refuted"],"Proved for the items and pictures of C241 if the file has no ID3 chunk, one before other chunks (in WAV files with padding: not 8 or more bytes larger than the new one) or one at the end that is not smaller. Refuted: saving over a smaller chunk at the end can panic, over a larger one before the RIFF INFO tag with padding loses that tag, and if the size field of the file is four bytes short the new tag loses its name.")
done("C244","partial",["C244_id3v1","C244_id3v2","C244_riff","C244_aiff","C244_ape","C244_chunk","C244_mp4","C244_mp4_added","C244_mp4_meta","C244_flac","C244_ogg","C244_empty_refuted","C244_ape_refuted","C244_footer_refuted","C244_flac_refuted","C244_ogg_refuted"],"Proved for ID3v1 tags that are not empty, ID3v2 tags in MPEG and AAC files, RIFF INFO and AIFF text tags in every file, APE tags in files without an APE tag 8 bytes after the start, and ID3v2 tags without footer in the chunks of well-formed WAV and AIFF files. Refuted in the other cases. MP4 files as in C116 and C118; FLAC files that have no comments or some of the same vendor, for tags without pictures (refuted for another vendor, which is the one kept). OGG files with the same vendor: in one piece in the comment packet, which pages may divide.")
done("C245","partial",["C245_id3v1","C245_id3v2","C245_aiff","C245_riff","C245_ape","C245_riff_refuted","C245_chunk_refuted","C245_ape_refuted","C245_mp4_refuted"],"Proved for ID3v1, ID3v2 (in front of MPEG and AAC files) and AIFF text tags in every file, for RIFF INFO if the size field of the file is from 4 to 2^32 - 9 and no INFO list claims to end after the file, and for APE tags if there is none 8 bytes after the start. Refuted otherwise: RIFF size below 4, an INFO list larger than the file, a smaller ID3 chunk at the end, an APE tag 8 bytes after the start, MP4 with a preferred padding of 1 to 7. FLAC is in C91.")
done("C246","partial",["C246_hash","C246_equivalence","C246_events","C246_times","C246_sorted","C246_order_refuted","C246_uniform_refuted"],"Equality is an equivalence and frames are equal exactly if they give the same to the hasher; the orders are total preorders and sorting of events is stable. Refuted: events or timestamp frames of the same time compare as Equal without being equal; flags and encodings count for some frames only.")
done("C247","partial",["C247_id3v1","C247_id3v2","C247_riff","C247_aiff","C247_chunk","C247_ape","C247_flac","C247_mp4","C247_id3v1_refuted","C247_id3v2_refuted","C247_riff_refuted","C247_ape_refuted","C247_flac_refuted","C247_mp4_refuted"],"Proved for tags that are not empty: ID3v1 and ID3v2 in front in every file, RIFF INFO, AIFF text and ID3 chunks in well-formed files (as in C105, C106, C108), APE with at least 64 bytes of audio, FLAC if no padding is wanted or there is some, MP4 if there is no free atom after the old list. Refuted: an empty ID3v1 tag is removed and added in turn, an empty ID3v2 or RIFF INFO tag removes one of several at a time, an APE value is taken for an ID3v1 tag, new FLAC padding moves, MP4 free space is overwritten by the second save. OGG files are in C99.")
done("C248","partial",["C248_riff_new","C248_riff_replaced","C248_wav_id3","C248_wav_removed","C248_aiff_text_new","C248_aiff_text_replaced","C248_aiff_id3","C248_aiff_removed","C248_flac","C248_mpeg","C248_aac_partial","C248_ape","C248_wavpack","C248_musepack","C248_ogg_partial","C248_mp4_partial","C248_mp4_added_partial","C248_mp4_before_partial","C248_overall_refuted","C248_lost_refuted","C248_aac_refuted","C248_opus_refuted"],"Proved for well-formed files (as in C89, C105, C106, C108). Refuted: in WAV files, with padding, a tag at least 8 bytes smaller than the one in front of the audio makes the audio and its properties unreadable. The overall bit rate counts the tags. In AAC files ten bytes of the tag count as audio, and the duration grows by what they play (80 bits, at most one millisecond more); all else is the same. MPEG files with a Xing header or a constant bit rate, and tags from generic items, as in C241; APE, WavPack (audio in one block) and Musepack files with an APE tag, as in C239. OGG files whose first packet is shorter than 255 bytes, if the renumbered last page does not happen to contain the letters OggS: all but the measured bit rates; that of the audio of an Opus file counts the page headers of the comments. MP4 files with the tables of offsets as in C116: the tag is replaced and the audio track is before it; if the tag is before the track, or the first one, for reading without tags.")
done("C249","partial",["C249_id3v1","C249_id3v2","C249_riff","C249_aiff","C249_chunk","C249_ape","C249_flac","C249_chunk_refuted","C249_flac_refuted","C249_mp4_refuted","C249_mp4_offsets_refuted","C249_ape_refuted"],"Proved for ID3v1 in every file, ID3v2 in front of files without the letters ID3 in the part that is searched (tags without extended header), RIFF INFO, AIFF text and ID3 chunks in well-formed files (as in C105, C106, C108), APE with at least 64 bytes of audio, and FLAC without padding. Refuted: in WAV files with padding and bytes after the last chunk a JUNK chunk stays; FLAC padding stays; the udta and meta atoms of MP4 files stay, and the chunk offsets, which adding does not move, are moved back by removing and then point into other data; an APE value is taken for an ID3v1 tag. In OGG files the comment packet always stays.")
done("C250","partial",["C250_id3v1","C250_id3v2","C250_riff","C250_aiff","C250_chunk","C250_ape","C250_flac","C250_flac_refuted","C250_mp4_refuted","C250_id3v1_refuted","C250_riff_refuted","C250_chunk_refuted"],"Proved if the first tag is not empty: ID3v1 (both not empty) and ID3v2 in front in every file, RIFF INFO, AIFF text and ID3 chunks in well-formed files (as in C105, C106, C108), APE with at least 64 bytes of audio, FLAC if the vendor that is kept is the same and no padding is wanted or there is some. Refuted: the vendor of the first FLAC comments stays, free space of MP4 files is used up, an empty ID3v1 tag is written or removed in turn, an INFO list that is removed and added is at the end, an ID3 chunk at the end that grows makes the size field wrong.")
done("C251","partial",["C251_id3","C251_ape","C251_id3v2_ape","C251_aiff","C251_wav","C251_wav_refuted","C251_short_refuted"],"Proved for ID3v1 tags that are not empty with ID3v2 tags (a tag without extended header in front, behind any junk, or none if the window is not longer than the audio) and with APE tags (at least 64 bytes of audio, an old tag or none), for ID3v2 tags in front with APE tags (at least 128 bytes of audio), and for AIFF text and ID3 chunks in well-formed files that have neither, and for RIFF INFO and ID3 chunks in WAV files that have the list. Refuted: in WAV files that have neither the chunks are in the order in which they were added; in a file shorter than the window the letters ID3 in an ID3v1 tag are taken for an ID3v2 tag.")
