WV="lofty/src/iff/wav/properties.rs: "
prop("C234","Extensible and compressed WAV files are described by their format chunk",
 "For an extensible format chunk the bit depth is that of the valid bits, the channel mask is that of the chunk and the format that of the sub-format; for a compressed format the duration is the number of samples in the fact chunk over the sample rate; without either the properties have no duration.",
 "every format chunk, fact chunk and size of the data","all combinations of format, sizes and counts",
 [WV+"read_fmt_chunk, read_properties", "lofty/src/iff/wav/read.rs: read_from"],
 "The format chunk is built from its fields, and the properties follow from the fields. Expected to fail for formats with fewer than eight bits for a sample.")
prop("C235","The generic properties of a file are those of its format",
 "FileProperties has the duration, bit rates, sample rate, bit depth, number of channels and channel mask that the properties of the format have; the mask has one speaker for each channel; nothing is reported if the properties are not read.",
 "every properties value of every format","all formats with all values",
 ["lofty/src/properties/file_properties.rs: FileProperties", "lofty/src/properties/channel_mask.rs: ChannelMask", "lofty/src/mpeg/properties.rs: From<MpegProperties> for FileProperties", "lofty/src/wavpack/properties.rs: From<WavPackProperties> for FileProperties", "lofty/src/iff/aiff/properties.rs: From<AiffProperties> for FileProperties", "lofty/src/aac/properties.rs: From<AACProperties> for FileProperties", "lofty/src/ogg/opus/properties.rs: From<OpusProperties> for FileProperties", "lofty/src/ape/properties.rs: From<ApeProperties> for FileProperties"],
 "One case for each format against getters written down independently. Expected to fail for more than 255 channels, and for the default of MPEG.")
