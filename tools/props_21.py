MC="lofty/src/musepack/"
prop("C186","A Musepack stream of version 8 is described by its packets",
 "The stream header, the gains and the encoder are those of their packets, whatever packets come between and in whatever order; the duration is the number of samples less the silence over the sample rate, rounded to the nearest millisecond; the bit rate is the content of the packets over the duration, rounded down. In strict mode a stream without header or without gains is an error.",
 "every sequence of packets with sizes of any number of bytes, all fields, every tag around the stream","sizes and orders of packets, all fields",
 [MC+"sv8/read.rs: read_from, PacketReader::next, PacketReader::read_size", MC+"sv8/properties.rs: StreamHeader::read, ReplayGain::read, EncoderInfo::read, read"],
 "Induction on the packets and on the bytes of the sizes.")
prop("C187","A Musepack stream of version 7 is described by its header",
 "Channels, frames, stereo flags, highest band, profile, link, sample rate, level, gapless flag, length of the last frame, fast seeking, gains, peaks and encoder are the fields of the header; the duration is that of the samples that are heard; the bit rate is the stream's over the duration.",
 "all values of the header, every stream length","all headers; f64 and f32 arithmetic on all values",
 [MC+"sv7/properties.rs: read, Profile::from_u8, Link::from_u8"],
 "The words as sums of fields; error bounds of the f64 and f32 operations. Expected to fail for negative gains, the version of the encoder and the samples that are not heard.")
prop("C188","A Musepack stream of version 4 to 6 is described by its header",
 "Mid/side stereo, version, highest band, number of frames (without the invalid last one before version 6), sample rate and channels are those of the header; the duration is that of the samples, rounded to the nearest millisecond; the bit rate is the stream's over the duration.",
 "all values of the header, every stream length","all headers; f64 arithmetic on all values",
 [MC+"sv4to6/properties.rs: read", MC+"read.rs: read_from"],
 "The words as sums of fields; the first bytes differ from all magic numbers; error bounds of the f64 operations. Expected to fail for the bit rate, which is divided by the length of a frame.")
prop("C189","Reading a Musepack file does not panic",
 "Reading any bytes gives a file or an error.",
 "every sequence of bytes, every option","all files, in particular damaged ones",
 [MC+"read.rs: read_from", MC+"sv8/read.rs: read_from", MC+"sv7/properties.rs: read", MC+"sv4to6/properties.rs: read"],
 "Bounds of all u64 operations. Expected to fail for huge numbers of samples and packet sizes, and for one frame of no samples.")
prop("C190","The tags of a Musepack file are those before and behind the stream",
 "An ID3v2 tag at the start, an ID3v1 tag in the last 128 bytes and an APE tag before it are read, for any stream between them; errors come only from the audio; the version of the stream is reported; without reading tags, the properties are the same.",
 "every stream, every tag, every option","all combinations of tags and options",
 [MC+"read.rs: read_from"],
 "The round trip of tags around any content. Expected to fail for the version, and for files whose tags are not read.")
