AA="lofty/src/aac/"
prop("C176","An ADTS header is read as the standard defines it",
 "The seven bytes of an ADTS header give the MPEG version, the object type, the sample rate, the number of channels and their speakers, the original and copyright bits and the length of the frame as ISO/IEC 13818-7 says. The reserved sample rate index 15, and headers of other layers, are refused.",
 "every header, valid or not","all values of all fields",
 [AA+"header.rs: ADTSHeader::read", "lofty/src/properties/channel_mask.rs: ChannelMask::from_mp4_channels"],
 "The 56 bits as a sum of shifted fields against the masks of the code. Expected to fail for the copyright bit, eight channels, four channels and the layer.")
prop("C177","The audio of an AAC file is found after zeros, ID3v2 tags and junk",
 "A file of zeros, ID3v2 tags, bytes without a sync and frames of one kind has the properties of its first frame.",
 "every number of zeros, tags, junk and frames","files beyond the samples",
 [AA+"read.rs: read_from, find_next_frame", "lofty/src/mpeg/header.rs: search_for_frame_sync, cmp_header"],
 "The whole reader on such files. Expected to fail for one frame, junk that looks like a header, a sync in the last bytes and small frames.")
prop("C178","The duration of an AAC file is that of its frames",
 "The duration is the number of frames times 1024 samples over the sample rate, and the bit rate is that of the frames.",
 "every file of frames","all lengths and numbers of frames",
 [AA+"read.rs: read_from", AA+"properties.rs: read_properties", AA+"header.rs: ADTSHeader::read"],
 "The formula of the code, then its relation to the true duration. Expected to fail: kilobits of 1024 bits.")
prop("C179","Reading an AAC file ends and does not panic",
 "Reading any bytes gives a file or an error.",
 "every sequence of bytes below 4 GiB, every option","all files, in particular damaged ones",
 [AA+"read.rs: read_from, find_next_frame"],
 "Each round of the loops goes forward. Expected to fail for frames of length 0.")
prop("C180","The tags of an AAC file are those in it, and do not change its properties",
 "All ID3v2 tags before the audio are merged, first come first, an ID3v1 tag at the end is read, and the properties are the same when tags are not read.",
 "every number of tags, every content","all tags",
 [AA+"read.rs: read_from"],
 "Induction on the tags; with tags off the content is not skipped, expected to fail.")
