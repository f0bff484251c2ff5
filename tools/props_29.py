UA="lofty/src/util/alloc.rs: "
prop("C230","Vectors are filled inside of their memory",
 "The fallible vectors hold exactly the copies that were asked for; a size over the limit is refused before memory is asked for, and a failing allocator gives an error; nothing is written outside of the memory.",
 "every element type, size, limit and allocator","every capacity an allocator may give; unsafe code whose errors do not show",
 [UA+"fallible_repeat, fallible_vec_from_element, try_with_capacity_stable"],
 "Memory cells up to the capacity, written or not; the loop writes cell after cell. Expected to fail for a vector that is longer than the size.")
prop("C231","The options of a thread are its own",
 "A thread sees the global options that it applied last, or the default, whatever other threads do; each setter changes what it names.",
 "every interleaving of applications by any number of threads","all interleavings",
 ["lofty/src/config/global_options.rs: GlobalOptions, apply_global_options, global_options"],
 "Induction over the sequence of events.")
prop("C232","The limit for allocations only refuses what is larger",
 "With a limit, Vorbis comments and APE items are read as without one or refused; they are refused exactly if a field is larger than the limit; a higher limit reads what a lower one does; nothing larger than the limit comes out, and no memory above it is asked for.",
 "every input, length, limit and option","all sizes around the limit, all contents",
 ["lofty/src/ogg/tag/read.rs: read_comments", "lofty/src/ape/tag/read.rs: read_ape_tag_with_header", "lofty/src/picture/mod.rs: from_flac_bytes_inner", "lofty/src/config/global_options.rs: allocation_limit"],
 "Induction over the fields; the picture in a comment is smaller than the comment. Expected to fail for the list of comments, whose capacity is not limited.")
prop("C233","Frames are written up to the limit for allocations",
 "as_bytes of a frame fails exactly if the result would be longer than the limit, as it is documented for PRIV, POPM, ETCO, CHAP and CTOC.",
 "every frame, limit and write option","all lengths around the limit",
 ["lofty/src/id3/v2/items/private_frame.rs: as_bytes", "lofty/src/id3/v2/items/popularimeter.rs: as_bytes", "lofty/src/id3/v2/items/event_timing_codes_frame.rs: as_bytes", "lofty/src/id3/v2/items/chapter_frame.rs: as_bytes", "lofty/src/id3/v2/items/table_of_contents_frame.rs: as_bytes"],
 "The capacity that is asked for against the length of the result. Expected to fail except for ETCO.")
