prop("C50","A stored star rating reads back with the same stars",
 "Take a Popularimeter parsed from text; store its mapped_value for any tag type together with its email and counter; Popularimeter::mapped on these returns the same email, stars and counter, for every installed rating provider that satisfies convert_raw(rate(r)) = r.",
 "every text, every tag type, every lawful custom provider","the provider is user code and the text is unbounded",
 ["lofty/src/tag/items/popularimeter.rs: from_str, mapped, mapped_value"],
 "Same provider is chosen on both sides because the email is the same.")
prop("C51","Where searching an ID3v2 tag leaves the stream, and its full size",
 "find_id3v2 leaves the reader at the end of the tag (10 + size + footer bytes after its start) and returns exactly its `size` content bytes; Id3v2Header::full_tag_size is the tag's length in the file.",
 "every tag, position and content","needs all combinations of flags, sizes and extended headers",
 ["lofty/src/id3/mod.rs: find_id3v2","lofty/src/id3/v2/header.rs: full_tag_size"],
 "Expected false with an extended header (its size is already included in `size`): refute; prove without.")
prop("C52","After the ID3v2 header the reader is at the first frame",
 "Id3v2Header::parse consumes exactly the header and the extended header (ID3v2.3 and ID3v2.4 layouts) and reports the CRC flag and restrictions stored there.",
 "every well-formed extended header and following bytes","layouts of two versions times flags times content",
 ["lofty/src/id3/v2/header.rs: parse, read_extended_header"],
 "Specify both layouts; prove for ID3v2.4 without update flag, refute for the update flag, show that every ID3v2.3 extended header leaves the reader elsewhere.")
prop("C53","find_id3v2 without a tag does not move",
 "If there is no ID3v2 tag at the current position, find_id3v2 returns no header and leaves the position unchanged, and does not fail.",
 "every stream and position","stream contents are unbounded; short streams",
 ["lofty/src/id3/mod.rs: find_id3v2 (its documentation)"],
 "Expected false for streams shorter than 10 bytes and after extended header errors: refute; prove with at least 10 bytes and no extended header.")
prop("C54","The search for ID3v2 in junk finds the first marker",
 "find_id3v2_in_junk finds the first occurrence of \"ID3\" in the window, never panics, and returns none only when there is none; with junk (not containing \"ID3\", also not overlapping the tag's start) before a tag, find_id3v2 returns that tag's content and ends after it.",
 "every window and every junk","unbounded junk, overlaps such as \"IID3\"",
 ["lofty/src/id3/mod.rs: find_id3v2_in_junk, find_id3v2"],
 "Invariant of the two-byte sliding window.")
