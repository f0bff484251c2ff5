WT="lofty/src/iff/wav/tag/mod.rs: "
AT="lofty/src/iff/aiff/tag/mod.rs: "
prop("C212","RIFF INFO lists become generic tags and back without loss",
 "Every item of the list appears in the tag in order, as a text without null characters at its ends; going back gives the same list; a tag turned into a list and back has its texts and links under keys of the format, in order.",
 "all lists and tags","unbounded lists, all keys, values with null characters",
 [WT+"SplitTag, MergeTag, From<RiffInfoList> for Tag, From<Tag> for RiffInfoList"],
 "Induction on the list. Expected to fail for keys that are not in the table or have two names.")
prop("C213","A generic tag is written as an INFO list like its conversion is",
 "The list that is written for a generic tag is the one the tag converts to; a rating is written as its number and comes back as a rating.",
 "all tags and rating providers","unbounded tags, all ratings",
 [WT+"tagitems_into_riff", "lofty/src/tag/utils.rs: dump_tag", "lofty_attr/src/internal.rs: write_module"],
 "Induction on the items. Expected to fail for ratings.")
prop("C214","AIFF text chunks become generic tags and back without loss",
 "The text chunks made from the tag of some text chunks are the same; those made of any tag have the first title, artist and copyright message and all comments in order, and are what is written for the tag.",
 "all text chunks and tags","unbounded lists of comments, all orders of items",
 [AT+"SplitTag, MergeTag, From<AiffTextChunks> for Tag, From<Tag> for AiffTextChunks", "lofty_attr/src/internal.rs: write_module", "lofty/src/tag/item.rs: take_strings"],
 "Lemmas about take_strings. Expected to fail for time stamps of comments and for the order.")
prop("C215","The accessors of RIFF INFO lists behave like fields",
 "After setting a text, a number or a date, reading it gives it; after removing it there is none; the others are untouched; they see what the generic tag of the list shows.",
 "all lists, values, numbers and valid dates","unbounded lists",
 [WT+"impl_accessor, track, set_track, track_total, date, set_date, contains"],
 "From the laws of insert and remove. Expected to fail for lists of files with keys in lower case.")
prop("C216","The accessors and counts of AIFF text chunks agree with their content",
 "A comment that is set is read back and one that is removed is not; there are none of them exactly if the count is zero; a key is contained exactly if the generic tag has an item under it.",
 "all text chunks","all combinations of absent, empty and filled chunks",
 [AT+"comment, set_comment, remove_comment, len, contains, is_empty"],
 "Case analysis. Expected to fail for comments with time stamps and empty lists.")
prop("C217","A generic tag saved to a WAV or AIFF file is read back",
 "Saving to a WAV file without an INFO list and reading it again gives a tag with the texts and links of the first under keys of the format that are not empty; saving to an AIFF file gives the title, artist, copyright message and the comments.",
 "all files of well-formed chunks, all tags that fit","unbounded files and tags",
 [WT+"TagExt for Tag", AT+"AiffTextChunksRef::write_to", "lofty/src/iff/wav/tag/write.rs: write_riff_info", "lofty/src/iff/wav/tag/read.rs: parse_riff_info"],
 "C105 and C108 together with the conversions.")
