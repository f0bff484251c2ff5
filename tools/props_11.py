prop("C114","iTunes metadata lists survive writing and reading",
 "A list of items written as an ilst atom and parsed again is the same list.",
 "all lists of items","all item names, value types, and values",
 ["lofty/src/mp4/ilst/write.rs: build_ilst, write_atom_data","lofty/src/mp4/ilst/read.rs: parse_ilst"],
 "Prove for items of the usual form; refute for UTF-16, empty values and booleans outside flags.")
prop("C115","Numbers in iTunes metadata items",
 "A signed or unsigned value of one to four bytes is read as the big-endian (two's complement) number it stores.",
 "all numbers of all sizes","all values",
 ["lofty/src/mp4/ilst/read.rs: parse_uint, parse_int"],
 "Prove for unsigned values and signed values of two to four bytes; refute for one signed byte.")
prop("C116","Saving a tag to an MP4 file that has one",
 "The new list takes the place of the old one and of the free space around it, sizes of the enclosing atoms are right, other atoms keep their content, and the saved file reads as the tag.",
 "every well-formed file with a tag, every list, every padding","unbounded trees of atoms; all sizes of free space",
 ["lofty/src/mp4/ilst/write.rs: write_to, save_to_existing, pad_atom","lofty/src/mp4/write.rs: AtomWriter"],
 "Prove for any tree of atoms below 4 GiB.")
prop("C117","Chunk offsets stay right when an MP4 tag changes size",
 "After saving, every chunk offset points to the same media data as before.",
 "every well-formed file, every list","all offset tables",
 ["lofty/src/mp4/ilst/write.rs: update_offsets","lofty/src/mp4/write.rs: find_all_children"],
 "Prove for stco tables; refute for co64 tables and movie fragments.")
prop("C118","Saving a tag to an MP4 file that has none",
 "A new udta or meta atom is added, everything else stays in order, the sizes of the enclosing atoms are right, the file reads as the tag and media data is still found.",
 "every well-formed file without udta or without meta, every list","unbounded files",
 ["lofty/src/mp4/ilst/write.rs: write_to, create_udta, create_meta"],
 "Prove the content; refute that chunk offsets are updated.")
prop("C119","Removing the tag of an MP4 file",
 "Removing the tag takes out exactly its list and moves the chunk offsets; the file then reads as one without tag.",
 "every well-formed file with a tag","unbounded files",
 ["lofty/src/mp4/ilst/write.rs: write_to, save_to_existing"],
 "Prove.")
prop("C120","The atoms of an MP4 file are found",
 "The writer sees every atom of a file with its position, size and children, whichever way its size is stored.",
 "all trees of atoms","unbounded trees",
 ["lofty/src/mp4/write.rs: AtomWriter, ContextualAtom::read","lofty/src/mp4/atom_info.rs: AtomInfo::read","lofty/src/mp4/read/mod.rs: skip_atom"],
 "Prove for 32-bit sizes; refute for 64-bit sizes and for atoms that extend to the end of the file.")
prop("C121","A crash while saving an MP4 file does not lose it",
 "If the process stops while saving, the media data is still in the file.",
 "every file, every list, every moment","crash points are not reachable by tests",
 ["lofty/src/mp4/write.rs: AtomWriter::save_to"],
 "Refute for every save that writes anything.")
prop("C122","Saving to an MP4 file whose meta atom has no list",
 "The other atoms of the meta atom are kept.",
 "every file with a meta atom without ilst","all files",
 ["lofty/src/mp4/ilst/write.rs: save_to_existing","lofty/src/mp4/read/mod.rs: atom_tree"],
 "Refute in general: the first atom is always taken for the list.")
prop("C123","Items that are not understood do not hide others",
 "An item with a value of an unknown type set is skipped and the items after it are read.",
 "all items of unknown type set, all lists after it","all sizes",
 ["lofty/src/mp4/ilst/read.rs: parse_data_inner"],
 "Refute in general: the next item is always skipped too.")
prop("C124","The tag of a track is not the tag of the file",
 "Metadata inside a track is not reported as the tag of the file.",
 "all files","layouts",
 ["lofty/src/mp4/moov.rs: Moov::parse","lofty/src/mp4/read/mod.rs: find_child_atom"],
 "Refute.")
