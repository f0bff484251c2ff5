M="lofty/src/mp4/"
prop("C151","Old and foreign forms of MP4 items are understood",
 "A flag item is true if and only if its value has a byte that is not 0, for every type and length; a gnre item with numbers n is read as the genre item with the n-th names of the ID3v1 list, counting from 1, when implicit conversions are on; a freeform item whose names do not fit in it is not read.",
 "every flag, every value, all genre numbers, all names and sizes","all values and lengths; off-by-one in the last genre",
 [M+"ilst/read.rs: parse_ilst", M+"atom_info.rs: parse_freeform, freeform_chunk"],"One item in a list, by the lemmas of C114; genre numbers above 255 expected to fail.")
prop("C152","The tags of several udta atoms are read as one",
 "If moov has two udta atoms with tags, the tag read has the items of the first, with the items of the second added: values under a name that is already there come after those, other items at the end.",
 "every file with two udta atoms, all lists of storable items","all trees around them",
 [M+"moov.rs: Moov::parse, ilst_from_udta", M+"ilst/mod.rs: Ilst::insert", M+"atom_info.rs"],"Generalise the lemma for one udta atom to any tag read so far.")
