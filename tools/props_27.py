AQ="lofty/src/ape/properties.rs: "
prop("C223","The properties of an APE file are those of its header",
 "A Monkey's Audio file of version 3.98 or later, with a descriptor of any length and with any ID3v2, APE and ID3v1 tags around it, is read with the version, sample rate, bit depth and channels of its header, and with its tags.",
 "all headers, descriptors, audio and tags","all field values, all lengths of the descriptor, all tags around",
 [AQ+"read_properties, properties_gt_3980", "lofty/src/ape/read.rs: read_from"],
 "The reading of each field is followed; the tags as in C69 and C181.")
prop("C224","The properties of an APE file of an older version are those of its header",
 "A Monkey's Audio file before version 3.98 is read with the version, sample rate and channels of its header and the bit depth that its flags say.",
 "all headers, audio and tags","all versions, compression levels and flags",
 [AQ+"read_properties, properties_lt_3980"],
 "As C223; the flags by their bits.")
prop("C225","The duration of an APE file is that of its blocks",
 "The duration is the number of blocks in all frames divided by the sample rate, rounded to the nearest millisecond, where the blocks in a frame of the older versions follow from the version and compression level; it is zero without a sample rate.",
 "all headers with fewer than 2^38 blocks","f64 arithmetic for all numbers of blocks and rates",
 [AQ+"get_duration_bitrate, properties_lt_3980"],
 "Bounds of the rounding errors of f64 arithmetic. Expected to fail for a last frame of one block.")
prop("C226","The bit rates of an APE file are those of its audio and of the file",
 "The audio bit rate is that of the file without its tags, the overall bit rate that of the whole file, each the nearest number of kbps up to 1/65536.",
 "all files below 2^50 bytes with fewer than 2^38 blocks and a bit rate below 2^32","f64 arithmetic for all sizes, lengths and tags",
 [AQ+"get_duration_bitrate", "lofty/src/ape/read.rs: read_from"],
 "As C225. Expected to fail for the overall bit rate, which counts up to the position of the reader.")
prop("C227","APE headers that cannot be are refused in strict mode only",
 "A number of channels that is not from 1 to 32, or no frames, is an error in strict mode; in other modes the fields of the header are reported and the times are zero.",
 "all headers, all tags","all values of the fields",
 [AQ+"verify, properties_gt_3980, properties_lt_3980"],
 "Case analysis. Expected to fail for 257 channels.")
prop("C228","Reading the properties of an APE file is total and reads a whole header",
 "No bytes make the reading of the properties panic; if it succeeds, the header is there in full; if properties are not asked for, nothing after the identifier matters.",
 "all bytes","truncation anywhere, any descriptor length",
 [AQ+"read_properties, properties_gt_3980, properties_lt_3980", "lofty/src/ape/read.rs: read_from"],
 "Case analysis.")
