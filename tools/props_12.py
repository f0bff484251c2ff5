M = "lofty/src/mp4/ilst/mod.rs: "
prop("C125","Removing and replacing an MP4 item leaves the others alone",
 "remove returns all items with the name and leaves the others; replace_atom leaves exactly the new item with its name. What other accessors return does not change.",
 "every list, every name, every item","lists of any length with repeated names",
 [M+"remove, replace_atom, get"],
 "Prove up to order. Refute that the order of the others is kept, and so that setting one field cannot change another one.")
prop("C126","MP4 accessors return what was set",
 "After setting a text field, a number, a total or a date the getter returns it; after removing it the getter returns nothing; the other half of a number pair stays.",
 "every list, every value","all 2^32 numbers, all lists",
 [M+"impl Accessor for Ilst, extract_number"],
 "Prove for numbers below 65536. Refute larger numbers, removal of a total, dates stored as UTF-16.")
prop("C127","MP4 flags","set_flag(true) makes is_flag true and leaves one item; set_flag(false) removes it.",
 "every list, every flag","repeated items",
 [M+"set_flag, get_flag, is_* accessors"],"Prove.")
prop("C128","MP4 advisory rating",
 "The rating is the first value of the first rating item that denotes a rating; what was set is returned.",
 "every list, every rating","values of any type",
 [M+"advisory_rating, set_advisory_rating","lofty/src/mp4/ilst/advisory_rating.rs: TryFrom<u8>"],"Prove.")
prop("C129","Inserting adds values",
 "insert appends the values to those of the first item of that name and changes no other item; insert_picture adds a picture at the end.",
 "every list, every item","all lists",
 [M+"insert, insert_picture"],"Prove.")
prop("C130","Removing all pictures from an MP4 tag",
 "After remove_pictures there are no pictures and everything else is there.",
 "every list","items with mixed values",
 [M+"remove_pictures"],"Prove for items with one sort of value. Refute in general both ways.")
prop("C131","A generic tag from an MP4 tag",
 "Every text with a known name, every cover, the number pairs and the rating are in the generic tag, in order; the remainder contains exactly what was not taken.",
 "every list","all lists",
 [M+"impl SplitTag for Ilst, From<Ilst> for Tag"],
 "Prove. Refute that no value is dropped and that a track number stored as text is the track number.")
prop("C132","An MP4 tag from a generic tag",
 "Every text item with a name in MP4 is stored under it, in order, pictures in one item, numbers as pairs, the rating as a number; the remainder stays.",
 "every generic tag, every remainder","all tags",
 [M+"impl MergeTag for SplitTagRemainder, From<Tag> for Ilst"],
 "Prove. Refute for locator items and numbers above 65535.")
prop("C133","MP4 tag to generic tag and back",
 "With the option to keep format specific items the texts, covers, unknown items, other values, number pairs and the rating survive.",
 "every list","all lists",
 [M+"impl SplitTag for Ilst, impl MergeTag for SplitTagRemainder","lofty/src/config/global_options.rs: preserve_format_specific_items"],
 "Prove value by value. Refute that items with several values stay one item, that the title accessor returns the same, and that anything unknown survives without the option.")
prop("C134","Generic tag to MP4 tag and back",
 "The texts of all supported keys, the pictures, numbers and the rating come back.",
 "every generic tag","all tags",
 [M+"impl SplitTag for Ilst, impl MergeTag for SplitTagRemainder","lofty/src/tag/item.rs: ILST_MAP"],
 "Prove with the exact set of keys and values. Refute for numbers that are 0.")
