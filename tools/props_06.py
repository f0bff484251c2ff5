prop("C67","The read-only flag of an APE tag survives",
 "An ApeTag marked read-only (ApeTag::read_only) is still marked read-only after being written and read again.",
 "every ApeTag","flag bits of a format field",
 ["lofty/src/ape/tag/mod.rs: ApeTag","lofty/src/ape/tag/read.rs: read_ape_tag_with_header","lofty/src/ape/tag/write.rs: create_ape_tag"],
 "Expected false: the flag is written but the reader never looks at it. Refute; prove that no tag read is ever read-only.")
prop("C68","respect_read_only keeps the read-only items of the old APE tag",
 "With WriteOptions::respect_read_only, saving an APE tag keeps the items of the existing tag that are marked read-only (\"these items will take priority over newly created tag items\").",
 "every file with an APE tag and every new tag","all pairs of old and new tags",
 ["lofty/src/ape/tag/write.rs: write_to, create_ape_tag","lofty/src/config/write_options.rs: respect_read_only"],
 "Expected false: create_ape_tag ignores the items found (TODO in the code). Refute; prove that the output does not depend on the old items.")
prop("C69","Saving an APE tag replaces the old one and keeps every other byte",
 "Saving (or removing) an APE tag changes nothing but the APE tag: the bytes before it, and an ID3v1 tag after it, are kept unchanged, and the file has exactly one APE tag afterwards.",
 "every file (audio, old tag, ID3v1 tag) and new tag","unbounded files; all layouts",
 ["lofty/src/ape/tag/write.rs: write_to","lofty/src/ape/tag/header.rs: read_ape_header","lofty/src/id3/mod.rs: find_id3v1, find_lyrics3v2, find_id3v2"],
 "Prove for a tag as lofty writes it (or none) after the audio. Expected false for tags without header (32 bytes of audio deleted), when tags are not read, and when the tag starts at offset 8: refute.")
prop("C70","Reading APE data never panics",
 "Reading an APE tag, and an APE file without its audio properties, from any bytes returns a value or an error.",
 "every byte string","arbitrary sizes and counts",
 ["lofty/src/ape/tag/read.rs: read_ape_tag","lofty/src/ape/read.rs: read_from"],
 "Prove for read_ape_tag. The file reader subtracts the footer size unchecked (panics in debug builds, wraps in release builds): refute.")
prop("C71","A crash while saving an APE tag does not lose the audio",
 "If the process dies at any point while an APE tag is saved, the file still has the audio bytes it had before.",
 "every file, tag and crash point","crash points cannot be sampled by ordinary tests",
 ["lofty/src/ape/tag/write.rs: write_to"],
 "Expected false: the file is truncated to 0 before it is written again. Refute for every successful save.")
prop("C72","APE files with the tag at the start can be read and saved",
 "A Monkey's Audio file whose APE tag comes before the audio can be read (the reader has code for it), and saving replaces that tag.",
 "every such file","all tags and audio contents",
 ["lofty/src/ape/read.rs: read_from","lofty/src/ape/tag/write.rs: write_to"],
 "Expected false: the loop never reads the next four bytes, and the writer skips 8 bytes before looking. Prove that no such file can be read.")
prop("C73","ApeTag and Tag conversions keep the information",
 "split_tag followed by merge_tag returns an equivalent ApeTag (same items), and converting a Tag to ApeTag and back keeps, for every key APE supports, its texts in order.",
 "every ApeTag and Tag","unbounded tags, interaction of keys",
 ["lofty/src/ape/tag/mod.rs: SplitTag, MergeTag, From<ApeTag> for Tag, From<Tag> for ApeTag"],
 "Prove for the keys stored one text per key; refute for pictures, year, read-only items and track texts that are not numbers.")
prop("C74","Saving a Tag as APE equals converting it first",
 "Writing a Tag directly as APE stores the same items as converting it to ApeTag (From<Tag>) and writing that; in particular all values and pictures are in the file.",
 "every Tag","unbounded tags",
 ["lofty/src/ape/tag/mod.rs: tagitems_into_ape, MergeTag for SplitTagRemainder"],
 "Expected false: values of one key are written as separate items of which reading keeps the last, pictures are not written. Refute; prove for one value per key.")
