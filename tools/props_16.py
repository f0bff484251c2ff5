T="lofty/src/id3/v2/tag.rs: "
K="lofty/src/id3/v2/tag/conversion.rs: "
prop("C153","Setting a text of an ID3v2 tag sets that text only",
 "After set_title, set_artist, set_album or set_genre with a text, the tag has exactly one frame of that name, with that text in UTF-8; the getter returns the text; all other frames, the version and the flags are as before. After the remove function the getter returns nothing and the other frames are those there were. In a 2.4 tag the values of a frame are shown with slashes between them.",
 "every tag, every text","all tags, including those whose frame of that name is of another kind",
 [T+"impl_accessor, remove_separators_from_frame_text", "lofty/src/id3/v2/frame/list.rs"],"By the lemmas on frame lists.")
prop("C154","Track and disk numbers of an ID3v2 tag are independent of their totals",
 "After set_track the track is that number and the total is what it was; after set_track_total the total is that number and the track is what it was; removing one leaves the other. The same for disks. Other frames are unchanged.",
 "every tag, all numbers up to 2^32-1","all tags; tags without a number",
 [T+"split_num_pair, insert_number_pair, set_track, remove_track, set_track_total, remove_track_total, set_disk, set_disk_total", "lofty/src/id3/v2/util/pairs.rs: format_number_pair"],"Decimal numbers parse back; expected to fail for tags with one of the two.")
prop("C155","The date that is set in an ID3v2 tag is the date it has",
 "After set_date(d), date() is d. A date that was read is returned by date(). After remove_date there is no date and the other frames are those there were. A date that is set is saved in the same form as one that was read.",
 "every tag, every date","all dates and tags",
 [T+"date, set_date, remove_date"],"set_date makes a text frame and date looks for a timestamp frame: expected to fail.")
prop("C156","The comment of an ID3v2 tag is the comment without a description",
 "After set_comment the comment is the given text; exactly one comment has no description, it has the language and the encoding of the first such comment of before, and all other frames are unchanged and in order. After remove_comment there is no comment without a description, and all other frames are unchanged.",
 "every tag, every text","tags with any number of comments",
 [T+"comment, set_comment, remove_comment, filter_comment_frame_by_description"],"Induction over the frames.")
prop("C157","The genre that is set in an ID3v2 tag is the genre it has",
 "After set_genre(s), the genres of the tag are s alone, and genre() is s.",
 "every tag, every text","short texts that are numbers or abbreviations",
 [T+"genres, genre, set_genre, parse_genre, GenresIter"],"Expected to fail for numbers.")
prop("C158","Converting an ID3v2 tag to a Tag and back loses nothing",
 "If an ID3v2 tag is converted to a Tag and back, with format specific items preserved, the frames are the same, in some order, and the version and the flags of the tag are the same. The same frames are written when the Tag is saved as it is.",
 "every tag whose frames are pairwise different and of the forms the library itself makes (or kept aside, or pictures); every order in which a hash set may be iterated","all combinations of frames; the order of a hash set",
 [T+"handle_tag_split, split_tag, merge_tag, From<Id3v2Tag> for Tag, From<Tag> for Id3v2Tag", K+"from_tag, tag_frames"],"Each frame gives items that give it again; induction over the list with the state of the conversion.")
prop("C159","The items of a Tag survive ID3v2",
 "If a Tag is converted to an ID3v2 tag, the frames are those the items belong in, and if it is converted back, the items are the same, in some order; the values of one key keep their order.",
 "every list of groups of items with pairwise different frames; all texts without NUL; every iteration order","all combinations of items",
 [K+"from_tag, item_to_frame", T+"handle_tag_split"],"From the lemmas of C158; a relation between groups of items and frames as the specification.")
prop("C160","A Tag for ID3v2 accepts the keys that ID3v2 can store",
 "A key can be inserted in a Tag of type ID3v2 if and only if an item with that key and some text gives a frame.",
 "every key, every tag","all keys; the tables are in different files",
 ["lofty/src/tag/item.rs: map_key, re_map", "lofty/src/tag/mod.rs: insert", K+"item_to_frame"],"Computation over all keys.")
prop("C161","Saving a Tag as ID3v2 writes what converting it gives",
 "The frames that are written when a Tag is saved to ID3v2 are the frames of the ID3v2 tag it is converted to, in some order.",
 "every Tag, every iteration order","two code paths, for owned and for borrowed items",
 [K+"from_tag, take_item_text_and_description, tag_frames", T+"merge_tag"],"Compare the two conversions; expected to fail for URLs.")
prop("C162","A Tag can be saved as ID3v2",
 "Every frame that is made from the items of a Tag passes the check of frames before they are written.",
 "every list of items","all keys and values",
 [K+"from_tag, item_to_frame", "lofty/src/id3/v2/write/frame.rs: verify_frame, create_items, create_items_v3"],"Invariant of the state of the conversion; expected to fail for WORK.")
