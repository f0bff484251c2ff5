prop("C240","A generic tag saved to an MP4 file is read back",
 "A generic tag that is saved to an MP4 file and read again from that file has the same texts under the same keys in the same order, the same track and disc numbers and totals, the same parental advisory and the same pictures.",
 "every generic tag, every MP4 file with or without user data, all paddings, all parsing modes","all tags and files; the conversion, the writer and the reader together",
 ["lofty/src/mp4/ilst/mod.rs: From<Tag> for Ilst, From<Ilst> for Tag, MergeTag::merge_tag, SplitTag::split_tag","lofty/src/mp4/ilst/write.rs: write_to, build_ilst","lofty/src/mp4/ilst/read.rs: parse_ilst","lofty/src/mp4/moov.rs","lofty/src/tag/utils.rs: write_tag"],
 "Compose C134 with C116 and C118; the atoms made from items must be atoms that are read as they are, which is a fact on the table of names. Expected to fail for descriptions and types of pictures, numbers that are not decimal and texts that end with NUL.")
prop("C241","A generic tag saved as ID3v2.4 to an MPEG or AAC file is read back",
 "A generic tag that is saved as ID3v2.4 to an MPEG or AAC file and read again from that file has the same items (key, value, language and description) and the same pictures up to order, and the other tags of the file stay as they were.",
 "every generic tag, every MPEG or AAC file with or without an ID3v2 tag in front, all parsing modes, every compression","all tags and files; the conversion, the writer and the reader together",
 ["lofty/src/id3/v2/tag/conversion.rs: tag_frames, From<Tag> for Id3v2Tag, MergeTag::merge_tag","lofty/src/id3/v2/tag.rs: SplitTag::split_tag","lofty/src/id3/v2/write/mod.rs: write_id3v2, create_tag","lofty/src/id3/v2/read.rs: parse_id3v2","lofty/src/mpeg/read.rs: read_from","lofty/src/aac/read.rs: read_from","lofty/src/tag/utils.rs: write_tag"],
 "Compose the conversion of groups of items into frames (C158) with writing of frames (C12), replacing of the tag (C148) and reading of MPEG and AAC files. Expected to fail for dates that are no dates, empty second values and locators.")
prop("C242","A generic tag saved as ID3v1 is read back",
 "A generic tag that is saved as ID3v1 and read again has the same title, artist, album, comment, year, track number and genre, and the other tags of the file stay as they were.",
 "every generic tag, every file with or without an ID3v1 tag, lossy and strict writing, all parsing modes","all tags and files; the conversion, the writer and the reader together",
 ["lofty/src/id3/v1/tag.rs: From<&Tag> for Id3v1TagRef, From<Id3v1Tag> for Tag","lofty/src/id3/v1/write.rs: write_id3v1, encode","lofty/src/id3/v1/read.rs: Id3v1Tag::parse","lofty/src/mpeg/read.rs: read_from"],
 "Compose C15 and C17 with the conversions of C65 and, for MPEG files, with the reader of C171. Expected to fail for long texts, genres that are not in the list, large track numbers and strict reading without a year.")
prop("C243","A generic tag saved as ID3v2.4 to a WAV or AIFF file is read back",
 "A generic tag that is saved as ID3v2.4 to a WAV or AIFF file and read again from that file has the same items (key, value, language and description) and the same pictures up to order, and the RIFF INFO tag or the text chunks of the file stay as they were.",
 "every generic tag, every WAV or AIFF file with or without an ID3 chunk, both names of the chunk, with or without padding, all parsing modes, every compression","all tags and files; the conversion, the writer and the reader together",
 ["lofty/src/id3/v2/tag/conversion.rs: tag_frames, From<Tag> for Id3v2Tag","lofty/src/id3/v2/write/mod.rs: write_id3v2, create_tag","lofty/src/id3/v2/write/chunk_file.rs: write_to_chunk_file","lofty/src/iff/chunk.rs: id3_chunk","lofty/src/iff/wav/read.rs: read_from","lofty/src/iff/aiff/read.rs: read_from"],
 "Compose C241's frames with the chunk writer of C106 and the readers of both file kinds. Expected to fail where C106 fails: a larger tag in place of the last chunk and a smaller one before other chunks with padding.")
prop("C244","Dumped bytes are what saving puts into the file",
 "If a tag can be dumped and can be saved to a file, the file holds the dumped bytes afterwards, as they are and in one piece.",
 "every ID3v1, ID3v2, APE, RIFF INFO and AIFF text tag, every content of the file, all options; every ilst and every Vorbis comments tag in well-formed MP4, FLAC and OGG files","all tags and files; two separate paths through the code",
 ["lofty/src/tag/utils.rs: dump_tag","lofty/src/id3/v1/tag.rs: Id3v1TagRef::dump_to","lofty/src/id3/v2/tag/conversion.rs: Id3v2TagRef::dump_to","lofty/src/iff/wav/tag/mod.rs: RIFFInfoListRef::dump_to","lofty/src/iff/aiff/tag/mod.rs: AiffTextChunksRef::dump_to","lofty/src/ape/tag/mod.rs: ApeTagRef::dump_to","lofty/src/mp4/ilst/ref.rs: IlstRef::dump_to","lofty/src/ogg/tag.rs: VorbisCommentsRef::dump_to","lofty/src/id3/v2/write/chunk_file.rs: write_to_chunk_file"],
 "Both paths start from the same encoded bytes; follow these through splices and the correction of the size field, which must be before them. Expected to fail for empty ID3v1 tags, footers in chunks and APE tags near the start of the file.")
prop("C245","Saving a tag that can be encoded does not panic",
 "If a tag can be encoded, saving it succeeds or returns an error but does not panic, whatever the file contains.",
 "every ID3v1, ID3v2, APE, RIFF INFO and AIFF text tag and every ilst atom, every sequence of bytes as the file, all options","all contents of files, including those whose size fields are wrong; panics are slices out of range and overflows at single values",
 ["lofty/src/id3/v1/write.rs: write_id3v1","lofty/src/id3/v2/write/mod.rs: write_id3v2","lofty/src/id3/v2/write/chunk_file.rs: write_to_chunk_file","lofty/src/iff/wav/tag/write.rs: write_riff_info, find_info_list","lofty/src/iff/aiff/tag/mod.rs: AiffTextChunksRef::write_to","lofty/src/iff/chunk.rs: Chunks","lofty/src/ape/tag/write.rs: write_to","lofty/src/mp4/ilst/write.rs: write_free_atom"],
 "AIFF: the ranges found are ascending, disjoint and inside of the file, an invariant of the chunk reader; draining them from the last keeps the earlier ones valid. APE: the tag at the end is inside of the file. Expected to fail for RIFF INFO (sizes from the file are not checked), ID3 chunks (C106), APE tags near the start (C69) and MP4 (padding below 8).")
prop("C246","Equality, hash and order of ID3v2 frames agree",
 "Equality of frames is an equivalence relation, equal frames have the same hash, and values whose order is Equal are equal.",
 "all frames of every variant, all events and timestamp frames","all pairs and triples of frames, with hand written and derived implementations side by side",
 ["lofty/src/id3/v2/frame/mod.rs: Frame","lofty/src/id3/v2/frame/header/mod.rs: FrameHeader, FrameId","lofty/src/id3/v2/items: PartialEq, Hash and Ord of the frames","lofty/src/id3/v2/items/event_timing_codes_frame.rs: Ord for Event","lofty/src/id3/v2/items/timestamp_frame.rs: Ord for TimestampFrame","lofty/src/tag/items/timestamp.rs: Ord for Timestamp"],
 "What a frame gives to the hasher as a list of calls; each part can be read off the list, so equal lists mean equal compared fields and the converse. Sorting of events is stable and chronological. Expected to fail: events and timestamp frames are ordered by time only.")
prop("C247","Saving the same tag a second time changes nothing",
 "If a tag is saved to a file, saving the same tag with the same options to the file again succeeds and leaves every byte as it is.",
 "every ID3v1, ID3v2, APE, RIFF INFO, AIFF text, FLAC and ilst tag, every file, all options","all tags and files; two runs of the writer, the second on the output of the first",
 ["lofty/src/id3/v1/write.rs: write_id3v1","lofty/src/id3/v2/write/mod.rs: write_id3v2","lofty/src/id3/v2/write/chunk_file.rs: write_to_chunk_file","lofty/src/iff/wav/tag/write.rs: write_riff_info","lofty/src/iff/aiff/tag/mod.rs: AiffTextChunksRef::write_to","lofty/src/ape/tag/write.rs: write_to","lofty/src/flac/write.rs: write_to_inner","lofty/src/mp4/ilst/write.rs: write_to, save_to_existing"],
 "The output of the first run is a file of the shape the theorems on saving (C17, C69, C89, C105, C106, C108, C116, C148) cover; apply these again. Expected to fail for empty tags, for new padding in FLAC files and where part of the new tag is taken for another tag.")
prop("C248","Saving a tag does not change what is read about the audio",
 "After a tag was saved, added or removed, reading the properties of the file gives the same format, duration, audio bit rate, sample rate, bit depth, channels and checksum as before; only the overall bit rate, that of the whole file, changes.",
 "every WAV, AIFF, FLAC, MPEG, AAC, APE, WavPack, Musepack, OGG and MP4 file, every RIFF INFO, AIFF text, ID3v2, APE, Vorbis comments and MP4 tag, all parsing modes and options","all files and tags; writer and reader together, over layouts where audio is before, between and after tags",
 ["lofty/src/iff/wav/properties.rs: read_properties","lofty/src/iff/wav/read.rs: read_from","lofty/src/iff/aiff/properties.rs: read_properties","lofty/src/iff/aiff/read.rs: read_from","lofty/src/flac/properties.rs: read_properties","lofty/src/flac/read.rs: read_from","lofty/src/id3/v2/write/chunk_file.rs: write_to_chunk_file","lofty/src/iff/wav/tag/write.rs: write_riff_info","lofty/src/iff/aiff/tag/mod.rs: AiffTextChunksRef::write_to","lofty/src/flac/write.rs: write_to_inner","lofty/src/mpeg/read.rs: read_from","lofty/src/mpeg/properties.rs: read_properties","lofty/src/aac/read.rs: read_from","lofty/src/aac/properties.rs: read_properties","lofty/src/id3/v2/write/mod.rs: write_id3v2","lofty/src/ape/read.rs: read_from","lofty/src/wavpack/read.rs: read_from","lofty/src/musepack/read.rs: read_from","lofty/src/ape/tag/write.rs: write_to","lofty/src/ogg/tag/write.rs: write","lofty/src/ogg/opus/properties.rs: read_properties","lofty/src/ogg/vorbis/properties.rs: read_properties","lofty/src/ogg/speex/properties.rs: read_properties","lofty/src/mp4/properties.rs: read_properties","lofty/src/mp4/ilst/write.rs: write_to, update_offsets"],
 "What is read about the audio depends on some chunks (blocks) only and, for the overall bit rate, on the length; saving keeps these chunks (C89, C105, C106, C108). Expected to fail where C106 fails: with padding, the audio after a tag that was made smaller.")
prop("C249","A tag that is saved and then removed leaves no trace",
 "If a tag is saved to a file that has none of this type, and then the tag of this type is removed, every byte of the file is as it was.",
 "every ID3v1, ID3v2, APE, RIFF INFO, AIFF text, FLAC and ilst tag, every file without a tag of the type, all options","all files and tags; a size field, a pad byte or a filler left behind shows up for some sizes only",
 ["lofty/src/tag/utils.rs: write_tag","lofty/src/tag/tag_type.rs: TagType::remove_from","lofty/src/id3/v1/write.rs: write_id3v1","lofty/src/id3/v2/write/mod.rs: write_id3v2","lofty/src/id3/v2/write/chunk_file.rs: write_to_chunk_file","lofty/src/iff/wav/tag/write.rs: write_riff_info","lofty/src/iff/aiff/tag/mod.rs: AiffTextChunksRef::write_to","lofty/src/ape/tag/write.rs: write_to","lofty/src/flac/write.rs: write_to_inner","lofty/src/mp4/ilst/write.rs: write_to"],
 "Chain the theorem about the first tag with the one about removal, for each format. Expected to fail for MP4 (udta and meta stay), for padding of FLAC files and for JUNK chunks in WAV files.")
prop("C250","The tag that was saved last decides",
 "If two tags of a type can each be saved to a file, saving one and then the other gives, byte for byte, the file that saving the other alone gives.",
 "all pairs of ID3v1, ID3v2, APE, RIFF INFO, AIFF text, FLAC and ilst tags, every file, all options","all pairs of tags and all files; what a first save leaves behind depends on the sizes of both tags",
 ["lofty/src/tag/utils.rs: write_tag","lofty/src/id3/v1/write.rs: write_id3v1","lofty/src/id3/v2/write/mod.rs: write_id3v2","lofty/src/id3/v2/write/chunk_file.rs: write_to_chunk_file","lofty/src/iff/wav/tag/write.rs: write_riff_info","lofty/src/iff/aiff/tag/mod.rs: AiffTextChunksRef::write_to","lofty/src/ape/tag/write.rs: write_to","lofty/src/flac/write.rs: write_to_inner","lofty/src/mp4/ilst/write.rs: write_to"],
 "After the first save the file is again of the shape that the theorems on saving cover, with the same other parts; apply these for the second tag. Expected to fail for MP4 (free space), for growing ID3 chunks (C106) and for the vendor of FLAC comments.")
prop("C251","Tags of different types can be saved in any order",
 "If two tags of different types can each be saved to a file, both orders of saving them succeed and give the same file.",
 "all pairs of ID3v1 and ID3v2, ID3v1 and APE, ID3v2 and APE, AIFF text and ID3v2, RIFF INFO and ID3v2 tags, every file that may have them already, all options","all pairs of tags and all files; one tag is found in the presence of the other, whatever it contains",
 ["lofty/src/tag/utils.rs: write_tag","lofty/src/id3/v1/write.rs: write_id3v1","lofty/src/id3/v2/write/mod.rs: write_id3v2","lofty/src/id3/v2/write/chunk_file.rs: write_to_chunk_file","lofty/src/id3/mod.rs: find_id3v1, find_id3v2","lofty/src/iff/wav/tag/write.rs: write_riff_info","lofty/src/iff/aiff/tag/mod.rs: AiffTextChunksRef::write_to","lofty/src/ape/tag/write.rs: write_to"],
 "Write the file as front, audio and end; each save replaces its part and keeps the others, and finds its part again whatever the other is. Expected to fail for WAV files, where both are added at the end, and for files shorter than the window of the search for ID3v2.")
