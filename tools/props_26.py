I2="lofty/src/id3/v2/items/"
prop("C218","A SYLT frame is read as its layout says, and every byte of it is accounted for",
 "Every well-formed synchronised text in any of the encodings, with a byte order mark on every text or on the description only, is read as its description, times and texts; anything that is read has that layout, with a terminator and a time for each text and nothing left over; no content panics.",
 "all contents","unbounded number of texts, all mixtures of byte order marks, truncations anywhere",
 [I2+"sync_text.rs: SynchronizedTextFrame::parse", "lofty/src/util/text.rs: decode_text, utf16_decode_terminated_maybe_bom"],
 "Induction over the texts for the loop.")
prop("C219","A SYLT frame that is written reads back",
 "Writing a frame with a valid language and texts without null characters and reading it gives the same frame, in both versions of ID3v2 and all encodings; contents of 2^32 bytes or more are refused.",
 "all frames, options and encodings","all texts and encodings",
 [I2+"sync_text.rs: SynchronizedTextFrame::as_bytes, parse"],
 "What is written is a layout of C218. Expected to fail for ID3v2.3, where the encoding byte is not the one that is used.")
prop("C220","A GEOB frame that is written reads back",
 "Writing a frame and reading it gives the same MIME type, name, description and object, in the encoding that the version has; no content panics.",
 "all frames, options, encodings and contents","all texts and encodings, all objects",
 [I2+"encapsulated_object.rs: GeneralEncapsulatedObject::parse, as_bytes"],
 "Round trips of the texts. Expected to fail for MIME types that are not ASCII.")
prop("C221","An ATXT frame that is written reads back",
 "Writing a frame and reading it gives the same MIME type, flag, text and clip, in the encoding that the version has; no content panics; equal frames have equal clips.",
 "all frames, options, encodings and contents","all texts and encodings, all clips",
 [I2+"audio_text_frame.rs: AudioTextFrame::parse, as_bytes, PartialEq"],
 "Round trips of the texts. Expected to fail for equality.")
prop("C222","Scrambling a clip twice gives it back",
 "The scrambling table holds the sequence of the shift register x^7 + x^6 + 1 that starts with seven ones, which repeats after 127 bytes; each byte of a clip is combined with the byte of the table at its place; the length stays and scrambling again gives the clip; it never panics.",
 "all clips","clips of all lengths",
 [I2+"audio_text_frame.rs: SCRAMBLING_TABLE, scramble"],
 "Computation of the table, periodicity and induction over the clip.")
