prop("C103","Every chunk of an IFF file is visited",
 "Going through the chunks of a file gives identifier, size, start and content of each, whatever part of each chunk the caller reads, with and without pad bytes.",
 "all lists of chunks, all amounts read","unbounded files and every way of reading",
 ["lofty/src/iff/chunk.rs: Chunks, Chunk, valid_fourcc"],
 "Prove for chunks with a zero pad byte or none at all; refute for another pad byte.")
prop("C104","RIFF INFO lists survive writing and parsing",
 "Parsing the INFO list written for a tag gives the items with a value, in order.",
 "all tags","all strings",
 ["lofty/src/iff/wav/tag/write.rs: create_riff_info","lofty/src/iff/wav/tag/read.rs: parse_riff_info"],
 "Prove.")
prop("C105","Saving a RIFF INFO list changes only that list",
 "Saving replaces the INFO list (or adds it at the end), keeps all other chunks and what follows the RIFF chunk, corrects the size field, and the file then reads as the tag.",
 "every well-formed WAV file, every tag","unbounded files",
 ["lofty/src/iff/wav/tag/write.rs: write_riff_info, find_info_list, create_riff_info","lofty/src/iff/wav/read.rs: read_from"],
 "Prove for one list of even size; refute for odd and for several lists; find the files that make it panic.")
prop("C106","Saving an ID3v2 chunk changes only that chunk",
 "Saving an ID3v2 tag in a WAV or AIFF file gives a well-formed file with all other chunks as they were and one ID3v2 chunk with the tag; removing removes it.",
 "every well-formed file, every tag","unbounded files; needs a comparison of whole files",
 ["lofty/src/id3/v2/write/chunk_file.rs: write_to_chunk_file, find_existing_id3v2_tag"],
 "Prove where it holds; refute for a growing tag at the end and for padding in the middle.")
prop("C107","AIFF text chunks survive writing and reading",
 "Reading the text chunks written for a tag gives the tag.",
 "all tags","all strings and lists of comments",
 ["lofty/src/iff/aiff/tag/mod.rs: create_text_chunks","lofty/src/iff/aiff/read.rs: read_from"],
 "Prove if only the last comment may have an odd length; refute otherwise.")
prop("C108","Saving AIFF text chunks changes only them",
 "Saving replaces all text chunks, keeps all other chunks in order, corrects the size field, and the file then reads as the tag.",
 "every well-formed AIFF or AIFC file with a COMM chunk, every tag","unbounded files",
 ["lofty/src/iff/aiff/tag/mod.rs: write_to_inner"],
 "Prove; refute for bytes behind the FORM chunk.")
prop("C109","An interrupted save of a WAV or AIFF file does not lose data",
 "If the process stops while saving, the audio data is still in the file.",
 "every file and every moment","crash points are not reachable by tests",
 ["lofty/src/iff/wav/tag/write.rs: write_riff_info","lofty/src/iff/aiff/tag/mod.rs: write_to_inner","lofty/src/id3/v2/write/chunk_file.rs: write_to_chunk_file"],
 "Refute for all saves that write the file anew; prove for an ID3v2 chunk at the end of the file.")
prop("C110","Properties of WAV files",
 "For PCM and float files the format, rate, depth and channels are those of the format chunk, the duration is that of the samples in the data chunk to the nearest millisecond, and the bit rates are to the nearest kbit/s.",
 "all format chunks and files","all field values",
 ["lofty/src/iff/wav/properties.rs: read_properties","lofty/src/iff/wav/read.rs: read_from"],
 "Prove for fewer than 256 channels; refute for more.")
prop("C111","Properties of AIFF files",
 "Channels, sample size and sample rate are those of the COMM chunk and the duration is the number of frames divided by the rate.",
 "all COMM chunks","all field values; floating point",
 ["lofty/src/iff/aiff/properties.rs: read_properties","lofty/src/util/math.rs: F80"],
 "Prove with a model of f64 arithmetic that the duration is rounded down; refute rounding to the nearest and exponents out of range.")
prop("C112","Reading WAV and AIFF files never panics",
 "No file content makes reading a WAV or AIFF file panic.",
 "every byte sequence, all options","all inputs",
 ["lofty/src/iff/wav/read.rs: read_from","lofty/src/iff/wav/properties.rs","lofty/src/iff/aiff/read.rs: read_from","lofty/src/iff/aiff/properties.rs","lofty/src/iff/chunk.rs"],
 "Prove, given an ID3v2 parser that does not panic.")
prop("C113","Items of RIFF INFO lists",
 "insert replaces the item with that key and keeps all others, get then gives the value, remove takes it out; invalid keys change nothing.",
 "all lists, keys and values","all keys",
 ["lofty/src/iff/wav/tag/mod.rs: RiffInfoList::get, insert, remove"],
 "Prove for distinct keys; refute for case and duplicates.")
