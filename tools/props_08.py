prop("C88","FLAC metadata blocks round trip",
 "A metadata block is written with its type, last flag and length and read back as itself, whatever surrounds it; a content of 16 MiB or more is refused.",
 "every block, every surrounding bytes","all sizes, flags and types",
 ["lofty/src/flac/block.rs: Block::read, Block::write_to"],
 "Prove.")
prop("C89","Saving a FLAC file touches only comments, pictures and padding",
 "After saving, the ID3v2 tag in front, the stream information, every block that is neither comments nor picture (in order, same content) and the audio are the same; after them stand exactly the comment block, the picture blocks and the padding block asked for. If there is nothing to store and nothing to remove the file is not written.",
 "every well-formed FLAC file, every tag","unbounded block lists and positions",
 ["lofty/src/flac/write.rs: write_to_inner, encode_tag","lofty/src/flac/read.rs: verify_flac"],
 "Prove, with the file described by an inductive format.")
prop("C90","A saved FLAC file reads back as saved",
 "Reading a FLAC file after saving gives the fields and pictures that were saved, and the vendor.",
 "every FLAC file, every tag","unbounded tags and files",
 ["lofty/src/flac/mod.rs: AudioFile::save_to","lofty/src/flac/write.rs","lofty/src/flac/read.rs: read_from"],
 "Prove for representable tags with the vendor retained; refute that the vendor of the tag is stored.")
prop("C91","Reading and saving FLAC files is total",
 "No file content makes reading or saving panic.",
 "every byte sequence","all inputs",
 ["lofty/src/flac/read.rs: read_from","lofty/src/flac/block.rs: Block::read","lofty/src/flac/write.rs: write_to_inner","lofty/src/flac/properties.rs: read_properties"],
 "Prove for saving, and for reading except for the panic of C80; refute in general.")
prop("C92","Removing everything and saving removes it from the FLAC file",
 "After taking away comments and pictures of a FlacFile, saving it leaves a file without them.",
 "every FLAC file","needs a state of the file and of the object",
 ["lofty/src/flac/mod.rs: FlacFile::write_to"],
 "Refute; prove for an emptied tag.")
prop("C93","Padding absorbs changes of FLAC metadata",
 "If the new metadata and the wanted padding fit into the old metadata, the file keeps its length and the audio its position.",
 "every FLAC file without padding block, every tag","sizes",
 ["lofty/src/flac/write.rs: write_to_inner"],
 "Prove.")
prop("C94","FLAC properties are those of STREAMINFO",
 "Sample rate, channels, bit depth, MD5 sum are the stored ones; the duration in milliseconds is the number of samples times 1000 divided by the rate, rounded down; the bit rates are bits per millisecond.",
 "every value of the fields","all bit patterns",
 ["lofty/src/flac/properties.rs: read_properties"],
 "Prove against the bit layout of the format.")
