I = "lofty/src/id3/v2/"
prop("C142","An ID3v2 tag has no two frames with the same identity",
 "Whatever is in the file, no two frames of a tag that was read (or of one of its chapters) have the same identity as the ID3v2 document defines it (one frame per name, or per name with language, description, owner and the like). Inserting a frame replaces the one with the same identity, returns it and keeps all others. Of two such frames in a file the later one is kept, unless it is empty and the earlier one is not.",
 "every file, every frame, every list","all files, lists of any length",
 [I+"tag.rs: insert, remove", I+"read.rs: read_all_frames_into_list", I+"frame/mod.rs: Frame::eq, is_empty"],"Prove by induction over reading.")
prop("C143","Reading an ID3v2 tag ends without a panic",
 "Reading a tag with any content, options and mode returns a tag or an error; the reader is right behind the tag afterwards. The memory and stack needed for it are bounded independently of the content.",
 "every content, every option","all byte strings, nested frames",
 [I+"read.rs: parse_id3v2, read_all_frames_into_list", I+"frame/read.rs", I+"frame/content.rs", I+"items/*.rs: parse"],
 "Prove for contents that do not grow when decompressed; the depth of chapters in chapters is expected to be unbounded.")
prop("C144","Flags of an ID3v2 tag",
 "A tag that is written with any of its flags (checksum, restrictions, unsynchronisation) is read back with its frames.",
 "every flag, every list of frames","all flags",
 [I+"write/mod.rs: create_tag, create_tag_header", I+"header.rs"],"Expected to fail; refute.")
prop("C145","Flags of an ID3v2 frame",
 "A frame that is written with any of its flags (compression, encryption, unsynchronisation, data length) is read back with the same content.",
 "every flag, every content","all flags",
 [I+"write/frame.rs: write_frame, write_encrypted", I+"frame/read.rs"],"Expected to fail; refute.")
prop("C146","A damaged ID3v2 frame does not affect the others",
 "When the reading is not strict, a frame that cannot be read is skipped and all other frames are read.",
 "every damage, every tag","all tags",
 [I+"read.rs: read_all_frames_into_list", I+"frame/read.rs", I+"frame/header/parse.rs"],"Prove for bad names, refute for contents.")
prop("C147","Frames follow one another by their sizes",
 "After a frame was read, the next one is looked for right behind it, as given by the size in its header.",
 "every frame in every tag, every mode","all contents",
 [I+"frame/read.rs: ParsedFrame::read", I+"frame/content.rs", I+"items/*.rs: parse"],
 "Prove for all kinds of frames except links and UTF-16 comments and lyrics; refute for those.")
prop("C148","Saving an ID3v2 tag replaces the old one and keeps the audio",
 "Saving to an MPEG or AAC file removes the old tag with what is before it, puts the new tag at the start and keeps every byte that follows the old tag; with no old tag every byte of the file is kept. Saving the same frames again changes nothing.",
 "every old tag without extended header, every new tag, every audio","all files",
 [I+"write/mod.rs: write_id3v2", "lofty/src/id3/mod.rs: find_id3v2"],"Prove.")
prop("C149","Saving an ID3v2 tag never loses audio",
 "In every file, whatever is in it and whenever the program is interrupted, the audio is kept; afterwards there is one tag.",
 "every file, every interruption","all files, all crashes",
 [I+"write/mod.rs: write_id3v2", "lofty/src/id3/mod.rs: find_id3v2"],"Expected to fail; refute.")
prop("C150","An ID3v2 tag that was read can be saved",
 "Saving a tag that was read does not fail.",
 "every file","all files",
 [I+"write/frame.rs: verify_frame, create_items, create_items_v3", I+"items/language_frame.rs", I+"items/ownership_frame.rs, items/event_timing_codes_frame.rs"],
 "Expected to fail; refute, and prove that tags with ownership frames or event timing codes can never be saved.")
