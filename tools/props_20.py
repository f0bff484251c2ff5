WV="lofty/src/wavpack/"
prop("C181","A WavPack file is described by its first block with audio",
 "Version, sample rate, bit depth (bytes per sample less the shift), losslessness, channels and speakers are those of the first block that holds samples, whatever blocks without samples come before it and whatever comes after. Audio of more than two channels, which is in several blocks, has the sum of their channels.",
 "every sequence of blocks, all values of their fields, every content","all flag words and blocks",
 [WV+"properties.rs: read_properties, parse_wv_header"],
 "The flag word as a sum of fields, induction on the blocks before. Expected to fail for several blocks at a usual sample rate: the channels stay 0.")
prop("C182","Sample rates outside the table and channel layouts come from the sub-blocks",
 "A sub-block with a sample rate gives the rate, a DSD sub-block multiplies it, a channel sub-block gives the number of channels and the speakers; other sub-blocks, of any size, are skipped.",
 "every sequence of sub-blocks, all rates, sizes and contents","sub-blocks of odd, even and large sizes in every order",
 [WV+"properties.rs: get_extended_meta_info"],
 "Induction on the sub-blocks. Expected to fail for the channel sub-block: its first byte is not taken from its size, so that the next one is read from its second byte.")
prop("C183","The duration and bit rates of a WavPack file are the nearest whole numbers",
 "The duration is the number of samples over the sample rate, in milliseconds, rounded to the nearest; the bit rates are those of the file and of the file without its tags, rounded; a file with an unknown number of samples has no duration.",
 "all numbers of samples, sample rates and file sizes","f64 arithmetic on all values",
 [WV+"properties.rs: read_properties, parse_wv_header"],
 "Error bounds of the f64 operations. Expected to fail for the number of samples of 40 bits.")
prop("C184","Reading a WavPack file does not panic",
 "Reading any bytes gives a file or an error.",
 "every sequence of bytes, every option","all files, in particular damaged ones",
 [WV+"read.rs: read_from", WV+"properties.rs: read_properties, get_extended_meta_info"],
 "Each round of the loops goes forward; the subtraction of the size of the APE tag is the one place that can fail.")
prop("C185","The tags of a WavPack file are those at its end",
 "An ID3v1 tag in the last 128 bytes and an APE tag before it are read, for any content before them, and errors come only from the audio.",
 "every content, every tag, every option","all combinations of tags",
 [WV+"read.rs: read_from"],
 "The round trip of APE tags at the end of any content.")
