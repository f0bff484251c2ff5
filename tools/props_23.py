PB="lofty/src/probe.rs: "
PF="lofty/src/file/file_type.rs: "
prop("C198","A file is recognised by how its format begins",
 "A reader whose next bytes begin like a file of a format (magic number; first Ogg page; frame sync) is guessed to be of that format, and a buffer is never taken for a format whose mark it does not bear.",
 "all fourteen beginnings with any contents around them; all buffers; any options and position","all sizes, keys and versions between the marks; all buffers without a mark",
 [PF+"quick_type_guess, from_buffer_inner, from_buffer", PB+"guess_inner"],
 "The tests of the code are mutually exclusive on the beginnings. Expected to fail for Ogg headers of more than one segment.")
prop("C199","A file is recognised behind an ID3v2 tag",
 "APE, FLAC, Musepack, MPEG and AAC files are recognised behind an ID3v2 tag of any size.",
 "every tag header and content, every beginning","all sizes, flags and contents",
 [PB+"guess_inner"],
 "The seven-bit size is decoded; the bytes behind are compared. Expected to fail for tags with a footer.")
prop("C200","Behind other bytes the first frame sync decides",
 "Without any mark, a file is MPEG or AAC exactly if its first frame sync lies within the allowed number of bytes; the layer bits tell which.",
 "every content and every limit","all positions of the sync, near and beyond the limit",
 [PB+"check_mpeg_or_aac, guess_inner", "lofty/src/mpeg/header.rs: search_for_frame_sync"],
 "The search finds the first sync of the window (C166).")
prop("C201","Guessing does not move the reader and depends only on what follows",
 "Guessing never fails on a reader that does not, leaves it where it was, keeps a type that was set if nothing is recognised, and depends only on the bytes from the position on.",
 "every reader, position, registry and limit","all positions, all paths through the code",
 [PB+"guess_file_type, guess_inner"],
 "Case analysis; every path seeks back.")
prop("C202","What a reader accepts is recognised",
 "A file that the reader of a format accepts is guessed to be of that format.",
 "every accepted file","all files the readers tolerate",
 [PB+"guess_inner", "lofty/src/iff/wav/read.rs: verify_wav", "lofty/src/iff/aiff/read.rs: verify_aiff", "lofty/src/flac/read.rs: read_from", "lofty/src/mp4/read/mod.rs: verify_mp4"],
 "What the readers check implies the mark. Expected to fail for leading zeros and footers.")
prop("C203","File names are recognised by their extension",
 "An extension stands for the format that uses it, whatever its case; a path counts by what is behind the last dot of its last component; registered resolvers come first; the published list of extensions is the list of recognised ones.",
 "all extensions, paths and registries","all strings",
 [PF+"EXTENSIONS, from_ext, from_path", "lofty/src/resolve.rs: FileResolver"],
 "Table lookup; splitting paths. Expected to fail for the list and for resolvers with capital letters.")
prop("C204","The supported tags are those documented; the primary tag can be written",
 "For each format and tag type, the support (none, read only, read and write) is that of the published table; the primary tag type of a format can be read and written; custom types ask their resolver and panic without one; a resolver is registered once.",
 "all formats, tag types and registries","every cell of the table, all registries",
 [PF+"primary_tag_type, tag_support", "lofty/src/resolve.rs: lookup_resolver, register_custom_resolver", "lofty_attr/src/lofty_tag.rs: emit"],
 "Case analysis.")
prop("C205","The limit for junk bytes applies to the recognition of files",
 "With a limit for junk bytes in the options, a file is recognised with that limit, by a probe and when it is read as a tagged file.",
 "every content and limit","all limits above and below the default",
 [PB+"guess_file_type", "lofty/src/file/tagged_file.rs: TaggedFile::read_from", "lofty/src/config/parse_options.rs: max_junk_bytes"],
 "Unfolding. Expected to fail for tagged files, which are guessed before the options are set.")
