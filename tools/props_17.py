H="lofty/src/mpeg/header.rs: "
R="lofty/src/mpeg/read.rs: "
PR="lofty/src/mpeg/properties.rs: "
prop("C164","An MPEG frame header is decoded as the standard says",
 "Four bytes that begin with the frame sync are read as a header if and only if version, layer, bit rate and sample rate are not reserved (nor free format); then all fields have the values of the standard, the mode extension only in joint stereo.",
 "every 32 bit word with a frame sync","there are two million words, the tables are indexed in four ways",
 [H+"Header::read", "lofty/src/mpeg/constants.rs"],"An encoder of the fields as specification; the decoder is its inverse, and every accepted word is in its image.")
prop("C165","The length of an MPEG frame is that of the standard",
 "The length computed from the header is the number of bytes of the frame.",
 "every valid header","all combinations of layer, version, bit rate, sample rate and padding",
 [H+"Header::read", "lofty/src/mpeg/constants.rs: PADDING_SIZES"],"Cases over the tables; expected to fail for Layer I, where the length is a number of slots of four bytes.")
prop("C166","The search for a frame sync finds the first one",
 "search_for_frame_sync returns the offset of the first byte 0xFF that is followed by a byte of at least 0xE0, or nothing if there is none.",
 "all bytes","syncs at the start, at the end, after 0xFF",
 [H+"search_for_frame_sync, verify_frame_sync"],"Induction over the bytes.")
prop("C167","The first frame of an MPEG stream is found",
 "In a file with zeros, ID3v2 tags, junk and a stream of frames, the first frame of the stream is found, and its offset.",
 "all tags, all junk without a frame sync, all streams of frames of one kind","all junk, all frame lengths",
 [R+"read_from, find_next_frame", H+"cmp_header, HEADER_MASK"],"Follow the reader over the parts of the file. Junk that ends in 0xFF and streams of one frame are expected to fail.")
prop("C168","The duration of an MPEG file with a VBR header is that of the frames counted in it",
 "If the first frame has a Xing, Info or VBRI header with the number of frames and bytes, the duration is that number times the samples in a frame over the sample rate, in milliseconds, rounded, and the bit rates are the bytes of the file and of the audio over that time.",
 "every file with such a header, whatever the other tags and frames","all sample rates and layers, all counts",
 [H+"VbrHeader::read", PR+"read_properties", "lofty/src/util/math.rs: div_round"],"From C167 and the layout of the headers; VBRI is expected to fail where it is not at the place of the Xing header.")
prop("C169","The duration of an MPEG file without a VBR header is that of its frames",
 "If all frames have one bit rate, the duration is the length of the frames over the bit rate, and differs from the time they play by at most one slot for each frame and half a millisecond.",
 "every file with two frames or more and 32 bytes behind the place of a Xing header, whose last frame contains nothing that looks like a header","the last frame is searched for in windows of 1024 bytes from the end",
 [PR+"read_properties", H+"rev_search_for_frame_header, Header::cmp"],"The search backwards finds the last header before the end; a frame never ends so that its header lies across two windows.")
prop("C170","Reading an MPEG file ends and does not panic",
 "read_from returns a file or an error.",
 "all bytes, all options, files below 2^59 bytes; a decompressor that does not make data longer","arithmetic on untrusted sizes; the loops over tags, frames and windows",
 [R+"read_from, find_next_frame", PR+"read_properties", H+"rev_search_for_frame_header"],"A measure for every loop; bounds for every product.")
prop("C171","All tags of an MPEG file are read",
 "The ID3v2 tags before the audio, merged, the APE tag and the ID3v1 tag behind it are in the file that is read, whether the properties are read or not.",
 "every file of such parts","all combinations of tags",
 [R+"read_from", "lofty/src/ape/tag/read.rs: read_ape_tag", "lofty/src/id3/mod.rs: find_id3v1, find_lyrics3v2"],"Follow the reader over the parts of the file; expected to fail for the footer of a second tag.")
prop("C172","The properties of an MPEG file do not depend on whether its tags are read",
 "With read_tags off the properties are the same as with read_tags on, and there are no tags.",
 "every file of such parts","two paths through the reader",
 [R+"read_from", "lofty/src/ape/tag/read.rs: read_ape_tag"],"Compare the two runs; expected to fail with an APE tag.")
prop("C173","The general properties of an MPEG file are its own",
 "The duration, bit rates, sample rate and channels are those of the MPEG properties; the channel mask is the front centre for mono, left and right for stereo, and unknown for two independent channels, and the channel count agrees with it.",
 "every file","all channel modes",
 [PR+"From<MpegProperties> for FileProperties, read_properties"],"Cases; the mode of the first frame is followed through the reader.")
