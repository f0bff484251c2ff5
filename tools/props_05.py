prop("C55","TagItem::new_checked agrees with Tag::insert",
 "TagItem::new_checked(tag_type, key, value) returns an item exactly when Tag::insert accepts that item for the tag type.",
 "every tag type, key, value and tag","over a hundred keys times seven tag types",
 ["lofty/src/tag/item.rs: TagItem::new_checked, re_map","lofty/src/tag/mod.rs: insert"],
 "Expected false for ID3v1 (new_checked uses map_key, insert uses VALID_ITEMKEYS): refute; prove for the others.")
prop("C56","FLAC picture block round-trip",
 "Picture::from_flac_bytes(as_flac_bytes(p, info, encode), encode) returns the same picture and picture information, with and without base64.",
 "every picture, information, encoding flag and parsing mode","unbounded pictures, descriptions and MIME strings",
 ["lofty/src/picture/mod.rs: as_flac_bytes, from_flac_bytes, MimeType"],
 "Parse the encoded fields in order; base64 inverse by groups of three. Restricted to what the encoding can represent (no empty description, canonical MIME and type); refute without.")
prop("C57","Reading a FLAC picture block never panics",
 "Picture::from_flac_bytes returns a picture or an error for every byte string.",
 "every byte string and mode","unbounded hostile lengths",
 ["lofty/src/picture/mod.rs: from_flac_bytes_inner"],
 "Case analysis over the reads; the size arithmetic must not overflow.")
prop("C58","APE picture round-trip",
 "Reading the bytes of as_ape_bytes under the picture type's APE key returns the same picture; reading never panics.",
 "every picture with an APE key","unbounded pictures and descriptions",
 ["lofty/src/picture/mod.rs: as_ape_bytes, from_ape_bytes, PictureType::as_ape_key"],
 "Expected false for non-ASCII descriptions (written as UTF-8, read as Latin-1): refute; prove for ASCII descriptions and data starting with a known signature.")
prop("C59","PNG picture information",
 "PictureInformation::from_png returns width, height, bits per pixel (bit depth times channels) and palette size of every PNG; never panics.",
 "every PNG header, chunk sequence and byte string","all colour types, arbitrary chunk sequences before the palette",
 ["lofty/src/picture/mod.rs: PictureInformation::from_png"],
 "Expected false for greyscale with alpha (depth times 4): refute; prove the other colour types, and palette files with any chunks before PLTE.")
prop("C60","JPEG picture information",
 "PictureInformation::from_jpeg returns width, height and bits per pixel from the first SOF0/SOF2 segment after any segments, and never panics.",
 "every JPEG segment sequence and byte string","arbitrary segments, hostile segment lengths",
 ["lofty/src/picture/mod.rs: PictureInformation::from_jpeg"],
 "Prove the result for well-formed files. Expected panics: segment length below 2 (u16 underflow) and precision * components (u8 overflow): refute totality.")
prop("C61","Picture type codes and APE keys are inverse",
 "PictureType::from_u8/as_u8 and from_ape_key/as_ape_key are inverse to each other; unknown APE keys give Undefined(0).",
 "every byte, picture type and string","strings are unbounded",
 ["lofty/src/picture/mod.rs: PictureType"],
 "Exhaustive over the named types; the rest by cases.")
prop("C62","Picture::from_reader recognises only by signature",
 "Picture::from_reader keeps the data unchanged and reports PNG, JPEG, GIF, BMP or TIFF only for data starting with that signature, fails with NotAPicture otherwise, never panics.",
 "every byte string","all prefixes",
 ["lofty/src/picture/mod.rs: Picture::from_reader, mimetype_from_bin"],
 "Cases over the eight first bytes.")
prop("C63","A tag only ever holds items its type supports",
 "Starting from an empty tag, any sequence of the safe Tag operations (insert, push, insert_text, accessors, remove, retain, take, take_filter, take_strings, re_map, pictures, clear) leaves only items whose key is supported by the tag's type.",
 "every operation sequence and tag type","unbounded histories, changing tag types",
 ["lofty/src/tag/mod.rs: Tag"],
 "Invariant by induction over the history.")
prop("C64","Tag accessors are a consistent store",
 "After setting a text field, a number or the date, the accessor returns that value and all other fields are unchanged; after removing, it returns nothing; which accessors have an effect for which tag type.",
 "every tag, value and timestamp","unbounded tags and values",
 ["lofty/src/tag/mod.rs: Accessor for Tag","lofty/src/tag/items/timestamp.rs"],
 "Get/insert laws plus the number and timestamp round-trips. Dates: expected to fail for timestamps that are not valid (set_date accepts them): refute; prove for valid ones.")
prop("C65","Id3v1Tag to Tag to Id3v1Tag",
 "Converting an Id3v1Tag to a Tag and back returns the same fields, also through the path that writes a Tag directly.",
 "every Id3v1Tag","combinations of optional fields",
 ["lofty/src/id3/v1/tag.rs: SplitTag, From<Tag> for Id3v1Tag, Into<Id3v1TagRef>"],
 "Expected false for genre codes outside the table: refute; prove for genres in the table.")
prop("C66","Saving a Tag as ID3v1 equals converting it first",
 "Writing a Tag directly as ID3v1 stores the same fields as converting it to Id3v1Tag (From<Tag>) and writing that, namely the first value of each field.",
 "every Tag","unbounded tags; depends on the order of unrelated items",
 ["lofty/src/id3/v1/tag.rs: From<Tag> for Id3v1Tag, Into<Id3v1TagRef> for &Tag"],
 "Expected false: take_strings reorders later items (the second artist is taken) and also takes locators: refute both; prove with at most one text item per field.")
