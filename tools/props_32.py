prop("C238","A generic tag saved to an OGG or FLAC file is read back",
 "A generic tag that is saved to an OGG or FLAC file and read again from that file has the same pictures and, in the same order, the same items with a text whose key has a name in Vorbis comments. Items without a name and binary values are left out, locators come back as texts, and the vendor of the file is the encoder unless the tag has one.",
 "every generic tag, every OGG layout or FLAC file, all read options","all tags and files, in all sizes; the conversion, the writer and the reader together",
 ["lofty/src/ogg/tag.rs: From<VorbisComments> for Tag, create_vorbis_comments_ref, save_to","lofty/src/ogg/tag/write.rs: write_to, write","lofty/src/flac/write.rs: write_to_inner","lofty/src/ogg/read.rs: read_comments","lofty/src/tag/item.rs: gen_map, VORBIS_MAP"],
 "Compose the conversion of items with what C98 and C90 say on files; the table of names gives names that are valid, not reserved and read back to their key. Expected to fail for empty values and for numbers with leading zeros if they are converted.")
prop("C239","A generic tag saved to an APE, WavPack or Musepack file is read back",
 "A generic tag that is saved as APE tag to a Monkey's Audio, WavPack or Musepack file and read again from that file has the same items, with texts, locators and binary values, in the same order; the numbers of tracks and discs come last. The ID3v2 tag in front and the ID3v1 tag at the end are read as before.",
 "every generic tag, every file of these formats with or without ID3v2, APE and ID3v1 tags","all tags and files; the conversion, the writer and the readers together",
 ["lofty/src/ape/tag/mod.rs: tagitems_into_ape, From<ApeTag> for Tag, split_tag","lofty/src/ape/tag/write.rs: write_to, create_ape_tag","lofty/src/ape/read.rs: read_from","lofty/src/wavpack/read.rs: read_from","lofty/src/musepack/read.rs: read_from","lofty/src/id3/mod.rs: find_id3v1"],
 "Compose the conversion with what C69 says on saving and with the shapes of the files in C185, C190 and C228. Expected to fail if the new tag has the letters TAG 128 bytes before its end, for several items with one key and for a total without a number.")
