prop("C75","Reverse search finds the last match in the window",
 "Searching backwards for a pattern, with any buffer at least as long as the pattern, finds the last occurrence that lies in the searched window, leaves the reader at it, and reports no match only if there is none. Without a match the reader is back where it was.",
 "every stream, pattern, buffer size, start and end","matches across buffer boundaries depend on sizes",
 ["lofty/src/util/io.rs: RevPatternSearcher, RevSearchStart, RevSearchEnd"],
 "Prove against 'last position in the window where the pattern occurs'. The documented restoring of the position is expected false: refute.")
prop("C76","Replacing a range of a FLAC file in place",
 "Replacing the bytes of a range by others of any length leaves exactly the bytes before the range, the new bytes and the bytes after it.",
 "every file, range, replacement and buffer size","chunked moves in both directions; off-by-one errors depend on sizes",
 ["lofty/src/flac/write.rs: replace_range, shift_left, shift_right"],
 "Prove that the logged operations applied to the file give the spliced content, for every buffer size; a range outside the file is refused.")
prop("C77","A crash while a FLAC file is rewritten does not lose audio",
 "If the process dies at any point while a range is replaced in place, the bytes after the range are still in the file.",
 "every file, range, replacement and crash point","crash points cannot be sampled by ordinary tests",
 ["lofty/src/flac/write.rs: replace_range"],
 "Expected false: refute. Prove that the bytes before the range are never touched.")
prop("C78","Vorbis comments survive a write/read cycle",
 "Every VorbisComments written as a packet (any signature, with or without framing bit) reads back as the same vendor, fields and pictures in the same order.",
 "every tag, options, signature and trailing bytes","unbounded text and picture content",
 ["lofty/src/ogg/tag/write.rs: create_metadata_packet, create_comments, create_pictures","lofty/src/ogg/tag/read.rs: read_comments"],
 "Prove for representable tags; refute for empty values and for numbers with leading zeros.")
prop("C79","Number pairs in Vorbis comments",
 "Reading TRACKNUMBER or DISCNUMBER (in any case) with a value a/b gives number a and total b; a value that is no number is kept as text, and with implicit conversions off every value is. No field read earlier is lost.",
 "every tag state, a, b, spelling of the name","depends on the fields read before",
 ["lofty/src/ogg/tag/read.rs: read_comments"],
 "Prove from every tag state. That several fields are all kept is expected false: refute.")
prop("C80","Reading Vorbis comments never panics",
 "Reading comments from any bytes, in any mode, returns a value or an error.",
 "every byte string and options","arbitrary lengths, counts and encodings",
 ["lofty/src/ogg/tag/read.rs: read_comments","lofty/src/picture/mod.rs: mimetype_from_bin"],
 "Expected false: the COVERART field with an image below eight bytes panics. Refute and prove that it is the only way.")
prop("C81","Fields of Vorbis comments in memory",
 "get returns the first and get_all all values of a field regardless of case; insert leaves exactly one value; push appends; invalid names change nothing; the number and date accessors return what was set, nothing after removal, and leave other fields alone.",
 "every tag state, name and value","all interactions of fields",
 ["lofty/src/ogg/tag.rs: VorbisComments, Accessor"],
 "Prove against a relation 'the values of a field in order'. Independence only up to order (see C82).")
prop("C82","Removing a field of Vorbis comments",
 "remove returns the values of the field in order, removes exactly these, and leaves all other fields as they were, so that get of another name returns the same value.",
 "every tag state and name","the order after removal depends on positions",
 ["lofty/src/ogg/tag.rs: VorbisComments::remove"],
 "Prove up to the order of what remains; the order is expected to change (swaps): refute.")
prop("C83","Every field that is read can be reached",
 "Every field of VorbisComments that was read from any bytes has a valid name, so get with this name returns a value.",
 "every byte string and options","arbitrary input",
 ["lofty/src/ogg/tag/read.rs: read_comments, valid_vorbis_comments_key","lofty/src/ogg/tag.rs: get, verify_key"],
 "Prove that the characters are valid; the empty name is accepted by the reader only: refute.")
prop("C84","Merging a Tag into Vorbis comments",
 "Merging a Tag keeps the remainder first and then stores each text whose key has a name under this name, in order; the encoder becomes the vendor; pictures are stored with their information.",
 "every Tag and remainder","unbounded tags, interaction of keys",
 ["lofty/src/ogg/tag.rs: MergeTag for SplitTagRemainder","lofty/src/tag/mod.rs: take"],
 "Prove exactly without encoder, up to order with one. The order is expected to change: refute.")
prop("C85","Vorbis comments survive splitting and merging",
 "split_tag followed by merge_tag gives the same vendor, fields and pictures.",
 "every tag","unbounded tags, interaction of keys",
 ["lofty/src/ogg/tag.rs: SplitTag, MergeTag"],
 "Prove up to order for fields with canonical names that are not ENCODER, RATING, COMPILATION; refute order, encoder, rating and pictures.")
prop("C86","Saving a Tag as Vorbis comments equals converting it first",
 "Writing a Tag directly as Vorbis comments stores what converting it to VorbisComments first would store.",
 "every Tag","unbounded tags",
 ["lofty/src/ogg/tag.rs: create_vorbis_comments_ref, From<Tag> for VorbisComments"],
 "Prove for plain keys and pictures of at least eight bytes; refute for encoder, flag and rating.")
prop("C87","Picture storage of Vorbis comments and FLAC",
 "Inserting appends a picture, an icon replacing the icon of its kind; there is never more than one icon of each kind; setting by index replaces or appends; removing a type removes exactly its pictures; a failed insertion changes nothing.",
 "every list of pictures","all orders of operations",
 ["lofty/src/ogg/picture_storage.rs: OggPictureStorage"],
 "Prove each; failure atomicity and uniqueness under set are expected false: refute.")
