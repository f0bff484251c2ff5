prop("C229","Saving keeps the type of the file",
 "After a tag has been saved to a file or removed from it, the file is recognised as what it was before.",
 "all files of the formats, all tags, all registries whose resolvers claim neither content","any content, any old tag, any new tag: the writers move, cut and splice what the recognition looks at",
 ["lofty/src/probe.rs: guess_inner", "lofty/src/iff/wav/tag/write.rs: write_riff_info", "lofty/src/iff/aiff/tag/mod.rs: write_to_inner", "lofty/src/id3/v2/write/chunk_file.rs: write_to_chunk_file",
  "lofty/src/id3/v2/write/mod.rs: write_id3v2", "lofty/src/id3/v1/write.rs: write_id3v1", "lofty/src/ape/tag/write.rs: write_to", "lofty/src/flac/write.rs: write_to_inner", "lofty/src/mp4/ilst/write.rs: write_to", "lofty/src/ogg/tag/write.rs: write"],
 "Each writer leaves the mark of its format where it was: no change starts before the end of the mark, or what is written anew begins with it. Tags at the end: a type that is recognised stays when something is appended. Expected to fail for the files of C69 and C199.")
