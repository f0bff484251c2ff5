TF="lofty/src/file/tagged_file.rs: "
prop("C206","A tagged file holds at most one tag of each type that its format can read",
 "Inserting, removing, clearing, changing a tag in place and changing the file type behave like operations on a map from tag types to tags; inserting a tag of a type that cannot be read changes nothing; the invariant holds after any sequence of them.",
 "all collections, tags, file types, registries and histories","unbounded histories and collections",
 [TF+"insert_tag, remove, clear, tag, tag_mut, change_file_type"],
 "Induction on the list and on the history. Expected to fail if the type of a tag is changed in place (Tag::re_map through tag_mut).")
prop("C207","Saving a tagged file writes its writable tags in order, and only those",
 "If the writers keep the type of the file, saving succeeds with a content exactly if that content results from writing, one after the other, the tags that the format can write; tags that it only reads are skipped; if no writer fails saving succeeds; it is all or nothing.",
 "all collections, contents and writers","all combinations of tags and all failures of writers",
 [TF+"TaggedFile::save_to", "lofty/src/tag/utils.rs: write_tag"],
 "Induction on the tags. Expected to fail for all or nothing.")
prop("C208","A tag is only written to files of formats that support it",
 "Saving a tag of a type the format of the file can write runs the writer for that type; otherwise it is refused and nothing is written; it never panics.",
 "all tags, contents and writers","all pairs of formats and tags, empty and not",
 ["lofty/src/tag/tag_ext.rs: TagExt::save_to", "lofty/src/tag/utils.rs: write_tag", "lofty_attr/src/internal.rs: write_module", "lofty/src/flac/write.rs: write_to"],
 "Case analysis over formats and types. Expected to fail for empty tags.")
prop("C209","A tag can be removed from a file if its type can be read",
 "Removal runs the writer of that type with an empty tag (or the one that strips ID3v2 tags) if the format can read the type and is refused otherwise; by path it does the same to the file.",
 "all types, contents, paths and writers","all pairs of formats and tags",
 ["lofty/src/tag/tag_type.rs: remove_from, remove_from_path, do_remove", "lofty/src/util/io.rs: VerifiedFile"],
 "Case analysis. Expected to fail by path: the file is opened for reading only and its content is not looked at.")
prop("C210","A file that was read can be saved again",
 "The tags of a format's file type are those the format can read; saving writes those that are there in order, and does not fail unless a writer does; the tagged file made of it has the same tags.",
 "all files, contents and writers","all combinations of tags",
 ["lofty_attr/src/lofty_file.rs: get_save_to_body, generate_from_taggedfile_impl, generate_audiofile_impl", "lofty/src/flac/mod.rs: FlacFile::write_to"],
 "Induction on the fields. Expected to fail for tags that the format only reads.")
prop("C211","Saving a bound file keeps in memory what is in the file",
 "BoundTaggedFile::save changes the file as saving the tags does; afterwards the tags that were empty are gone, the others are kept; with an error nothing is dropped.",
 "all collections, contents and writers","all collections",
 [TF+"BoundTaggedFile::save"],
 "Unfolding. Expected to fail for tags that only have format-specific items.")
