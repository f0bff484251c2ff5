V2="lofty/src/id3/v2/"
prop("C163","ID3v2.2 tags are read as the frames they stand for",
 "A tag of ID3v2.2 frames (names of three characters, sizes of three bytes, texts in ISO-8859-1 or UTF-16, pictures with a format of three characters), unsynchronised or not, is read as the same frames under the names ID3v2.4 has for them; names without a successor are kept. An ID3v2.3 tag reads the same whether it is unsynchronised or not.",
 "every tag of distinct frames, every padding","all names, sizes and contents",
 [V2+"frame/header/parse.rs: parse_v2_header", V2+"util/upgrade.rs: V2_KEYS", V2+"frame/read.rs: ParsedFrame::read", V2+"items/attached_picture_frame.rs: parse", V2+"read.rs: parse_id3v2"],
 "The contents of ID3v2.3 except for the verified encodings; a table of names from the standard. Expected to fail for TOA and TXT.")
prop("C174","The checksum of an ID3v2.4 tag is the CRC-32 of its frames and padding",
 "With the CRC flag, the extended header has the CRC-32 (ISO 3309) of what follows it up to the footer, as five bytes of seven bits.",
 "every tag, flags, padding and restrictions","all contents",
 [V2+"write/mod.rs: create_tag, calculate_crc"],
 "The table form against the bit-serial definition by linearity; the place of the bytes in create_tag. Expected to fail with padding and restrictions.")
prop("C175","Volume adjustments are read back whatever their peak",
 "An RVA2 frame can be written and read back with its channels and their peak volumes of up to 32 bytes.",
 "every list of channels","all peaks and bit counts",
 [V2+"items/relative_volume_adjustment_frame.rs: parse, as_bytes"],
 "Round trip for peaks of the stated size; the bit count of longer ones is worked out from leading ones, which is expected to fail.")
