I = "lofty/src/id3/v2/"
prop("C135","ID3v2 frame ids",
 "A frame id is accepted exactly if it is 3 or 4 characters out of A-Z and 0-9. Every known ID3v2.2 and ID3v2.3 id is translated to exactly one valid ID3v2.4 id.",
 "every text","all texts; the tables",
 [I+"frame/header/mod.rs: FrameId::new, verify_id", I+"util/upgrade.rs: upgrade_v2, upgrade_v3"],"Prove.")
prop("C136","ID3v2 frame flags",
 "The flag bytes that are written are the sum of the bits given by the ID3v2.3 and ID3v2.4 documents, one for each flag; reading recovers each flag, so that unknown bits are ignored.",
 "every combination of flags, every two bytes","all flag bytes",
 [I+"frame/mod.rs: FrameFlags::parse_id3v24, parse_id3v23, as_id3v24_bytes, as_id3v23_bytes"],"Prove.")
prop("C137","ID3v2 frame headers",
 "A frame header is 10 bytes, and reading it yields the id, the size and the flags it was made from (sizes in ID3v2.4 as 4 times 7 bits); if writing fails the size does not fit.",
 "every id, size and flags, both versions","all sizes",
 [I+"write/frame.rs: write_frame_header", I+"frame/header/parse.rs: parse_header"],"Prove.")
prop("C138","ID3v2 frame contents",
 "Writing the content of a frame and reading it yields the frame: comments, lyrics, texts, user texts, links, pictures, ratings, people lists, volume adjustments, file ids, ownership, events, private data, dates and unknown frames, in each encoding.",
 "every frame of these kinds with contents that can be stored, both versions, every parsing mode","all texts, all numbers, every kind",
 [I+"items/*.rs: parse, as_bytes", I+"frame/content.rs: parse_content"],
 "Prove with the exact condition per kind (FrameSpec.content_ok); state refutations of the unconditional claims separately.")
prop("C139","An ID3v2.4 tag is read back as it was",
 "Writing frames (with chapters in chapters), then reading them yields the same frames in the same order and the same flags; the reader stops at the end of the tag. Writing can only fail because something is too large.",
 "every list of frames without duplicates, every padding, footer, flags; every parsing mode; whatever follows",
 "lists of any length, nesting of any depth",
 [I+"write/mod.rs: create_tag, create_tag_header, calculate_crc", I+"write/frame.rs: create_items", I+"read.rs: parse_id3v2, read_all_frames_into_list",
  I+"frame/read.rs", I+"items/chapter_frame.rs, items/table_of_contents_frame.rs"],
 "Prove for the flags whose content can be written (not encryption, compression and the like, nor the extended header).")
prop("C140","An ID3v2.3 tag is read back as far as that version allows",
 "The same in ID3v2.3. Frames that version has come back with texts in UTF-16 unless they were Latin-1. Frames new in ID3v2.4 are dropped; a recording date comes back with year, day and month, hour and minute; an original release date with its year; all people of both lists in one list; genres with the same names.",
 "every list of frames with at most one recording date, years from 1000, and pairs of people of which the last has a value","lists of any length, nesting of any depth, all dates",
 [I+"write/frame.rs: create_items_v3", I+"read.rs: parse_id3v2, construct_tdrc_from_v3", I+"tag.rs: GenresIter"],
 "Prove for whole tags; the place of the date may change.")
prop("C141","An ID3v2.3 tag loses nothing else",
 "Dates with any year, the roles of people, all pairs of people, genres with parentheses, and dates in ID3v2.3 tags of other programs are read as they were stored.",
 "every date, every list of people, every genre","all values",
 [I+"write/frame.rs: create_items_v3", I+"read.rs: construct_tdrc_from_v3", I+"tag.rs: GenresIter"],
 "Expected to fail; refute by example, and prove that a full date in an ID3v2.3 tag is always removed.")
