# Formal model of lofty-rs in Rocq (Coq 8.16.1): design

Source: `/repo` (Serial-ATA/lofty-rs, pinned). Model and proofs: `/verif/rocq/theories`.

## Method

* The model is a set of total, computable Gallina functions, one per Rust function, each with a comment
  citing the file and lines it models. `&mut` parameters become returned values; `Result`/`Option` stay data;
  a panic path (arithmetic overflow with debug assertions, slice out of bounds, `unwrap`, `assert!`) is an explicit
  `Panic` value.
* Bytes are `N` values (`byte_ok b := b < 256`), byte buffers are `list N`; Rust `String`s are lists of Unicode
  scalar values (`list N`) with an explicit UTF-8/UTF-16 codec. `as` casts are written as explicit `mod 2^k`.
* A `Read` over a fixed buffer (`Cursor`, `&[u8]`) is the list of bytes still to be read. A file is its content plus a
  position, and the primitive mutations (write, truncate) are logged so that crash points are prefixes of the log.
* File naming: `XModel.v` (model only), `XSpec.v` (small independent specification), `XProof.v` (lemmas),
  `XThm.v` (the property theorems, each closed by a lemma, with non-vacuity examples and `Print Assumptions`).
* A property that is false of the faithful model is kept with its full statement, and refuted by a theorem
  `..._refuted` with a concrete witness. The strongest true part is proved beside it with suffix `_partial`.

## Trusted base

* Coq 8.16.1's kernel (including `vm_compute`), and the standard library. No axioms are declared;
  `Print Assumptions` is run beneath every property theorem (see the build log).
* The correspondence between the Gallina model and the Rust source is by reading: nothing was executed.
* The behaviour of Rust's `std` (`Vec`, `String::from_utf8`, `char`, `Read::read_exact`, ...) and `byteorder` is modelled by
  hand from their documentation.

## What is not modelled

* Real operating-system file behaviour (permissions, short writes other than at crash points, I/O errors of the device).
* `log` output, error message texts, memory allocation failure (other than the configured allocation limit where said).
* Performance and memory safety of `unsafe` code.
* These parts of the source (each may become a file below as the model grows): what the `lofty_attr` derive macros generate beyond saving and conversion of files.

## What is modelled

One line per model file; the comments inside cite the lines function by function. Code not named here is not modelled.

* `AacModel.v`: Model of lofty/src/aac: header.rs, read.rs and properties.rs (ADTS), and of ChannelMask::from_mp4_channels in properties/channel_mask.rs. A reader is the file and a position, as in the model of MPEG; only the end of the file makes a read fail. Integer overflow panics, as in a build with checks. The loop that counts the frames need not end: it gets a number of rounds, and [Panic] stands for using them up too.
* `AiffModel.v`: Model of lofty/src/iff/aiff/read.rs, iff/aiff/properties.rs and iff/aiff/tag/mod.rs. Simplified: the reader, the ID3v2 parser and fuel as in [IffModel.v]; allocation never fails; a finite f64 is the rational it stands for, and an arithmetic operation is the exact operation followed by rounding to 53 bits, ties to even (none of the values here is small or large enough for subnormals or overflow).
* `AllocModel.v`: Model of lofty/src/util/alloc.rs and config/global_options.rs, and of the limit for allocations in the readers of Vorbis comments (ogg/tag/read.rs) and of APE items (ape/tag/read.rs) and in [as_bytes] of the ID3v2 frames that use it (items/private_frame.rs, popularimeter.rs, event_timing_codes_frame.rs, chapter_frame.rs, table_of_contents_frame.rs). The memory of a vector is written out: its cells up to the capacity, each of them written or not. The allocator is a function [grow] that gives the new capacity for the one that is needed, or none. [Panic] stands for a write outside of the memory too. In the other readers allocation does not fail. Simplified: frames inside chapters and tables of contents are written without a limit.
* `ApeModel.v`: Model of lofty/src/ape/tag (header.rs, item.rs, read.rs, write.rs, mod.rs), of lofty/src/ape/read.rs without the audio properties, and of lofty/src/id3/v2/util/pairs.rs.
* `ApePropsModel.v`: Model of lofty/src/ape/properties.rs and of the rest of ape/read.rs: the audio properties of APE files, and the whole result of reading one. The tags and the lengths are those of [ape_read_from] in [ApeModel.v]. The reader is the bytes from "MAC " on; only the end of the file makes a read fail, and seeking past it does not. f64 arithmetic as in [AiffModel.v]; a division by a length of zero gives infinity, or NaN for zero bytes, and their conversions to u32 are written out.
* `ChunkTagModel.v`: Model of ID3v2 tags in the chunks of WAV and AIFF files with their frames (lofty/src/iff/chunk.rs 279-306, id3/v2/write/mod.rs 37-72). The parts are modelled in FrameReadModel, FrameWriteModel and IffModel. Simplified: all errors of the parser are one.
* `FileModel.v`: Files as byte lists with a log of the primitive mutations, so that a crash leaves a prefix of the log applied.
* `FilePropsModel.v`: Model of properties/file_properties.rs and of the conversions of the properties of all formats into FileProperties (From impls): iff/wav/properties.rs 45-67, iff/aiff/properties.rs 104-116, ogg/speex/properties.rs 28-40, ogg/vorbis/properties.rs 27-39, ogg/opus/properties.rs 27-43, flac/properties.rs 21-33, mp4/properties.rs 197-209, ape/properties.rs 23-35. Those of AAC, MPEG, Musepack and WavPack are in the models of these formats. Durations are in milliseconds; the values of the input are those of the models of the readers.
* `FlacModel.v`: Model of lofty/src/flac/block.rs, flac/read.rs, flac/properties.rs, flac/write.rs (1-175, 308-330; the rest is FlacMoveModel.v) and of saving a FlacFile and turning it into a TaggedFile (flac/mod.rs 58-160), without the content of ID3v2 tags.
* `FlacMoveModel.v`: Model of the in-place range replacement of lofty/src/flac/write.rs (176-307).
* `FrameHashModel.v`: Model of [Hash] and [Ord] of ID3v2 frames: frame/mod.rs 107 (derived), header/mod.rs 12 and 65, the hand written [Hash] of items/*.rs (next to each hand written [PartialEq]), tag/items/timestamp.rs 26, picture/mod.rs 43, 136 and 590, [Ord] of items/event_timing_codes_frame.rs 202-212 and items/timestamp_frame.rs 22-32. What a value gives to the hasher is a list of the calls made to it: numbers (discriminants, lengths and integers), strings and byte slices. Discriminants are numbered in the order of the declarations; the standard library only promises that they differ.
* `FrameModel.v`: Model of ID3v2 frames: lofty/src/id3/v2/frame/mod.rs, frame/header/mod.rs, frame/list.rs, util/upgrade.rs and, for each kind of frame, items/*.rs (content to bytes and back). A frame's HashMap of channels is the list of its entries in iteration order; an i16 is its two's complement.
* `FrameReadModel.v`: Model of reading ID3v2 frames and tags: lofty/src/id3/v2/frame/header/parse.rs, frame/read.rs and read.rs. Decompression (flate2) is an argument of the model: a function from the whole content to the whole decompressed content or an error.
* `FrameWriteModel.v`: Model of writing ID3v2 frames and tags: lofty/src/id3/v2/write/frame.rs, write/mod.rs (write_id3v2 for files that begin with the tag; WAV and AIFF are in the chunk model), the as_bytes of CHAP and CTOC, and tag.rs GenresIter. The preferred padding is [None] or a number (NonZero in the code).
* `Id3v1Model.v`: Model of lofty/src/id3/v1.
* `Id3v2HeaderModel.v`: Model of lofty/src/id3/v2/restrictions.rs, lofty/src/id3/v2/header.rs and of the searches in lofty/src/id3/mod.rs.
* `Id3v2ItemsModel.v`: Model of the helpers for ID3v2 frames that are kept as binary frames: SYLT, GEOB and ATXT (lofty/src/id3/v2/items/sync_text.rs, encapsulated_object.rs, audio_text_frame.rs). The header with its flags, which they only carry, is left out.
* `Id3v2TagModel.v`: Model of lofty/src/id3/v2/tag.rs (Id3v2Tag: the accessors, and the conversion to Tag), tag/conversion.rs (the conversion from Tag, owned and by reference), util/pairs.rs and util/mappings.rs. The custom provider of ratings is a parameter, as in the model of ratings. A HashMap or HashSet is iterated in an unknown order: [order] is the function that gives it. Equal frames have equal hashes, so a HashSet of frames keeps the first of several equal ones. Simplified: a COMM or USLT frame is known to have that id (its fields are private and it is made with it), so the key of its items is not looked up; the companion of a Tag is either an Id3v2Tag or something else.
* `IffModel.v`: Model of lofty/src/iff/chunk.rs ([valid_fourcc], [Chunks], [Chunk]), iff/wav/read.rs, iff/wav/properties.rs, iff/wav/tag/{mod,read,write}.rs and id3/v2/write/chunk_file.rs. Simplified: a reader is the bytes still to be read and the position (seeking back only undoes a read); sizes of allocations are not limited; the ID3v2 parser and the joining of duplicate ID3v2 tags are parameters of reading, the encoded ID3v2 tag is a parameter of writing; loops carry fuel, running out of it is [Panic].
* `IffTagModel.v`: Model of the conversions of RIFF INFO lists and AIFF text chunks from and to Tag and of their accessors (lofty/src/iff/wav/tag/mod.rs, iff/aiff/tag/mod.rs), and of what the writers make of a Tag (lofty_attr/src/internal.rs, the same in tag/utils.rs, dump_tag).
* `IlstModel.v`: Model of lofty/src/mp4/ilst/mod.rs (Ilst: the interface and the conversions to and from Tag), ilst/advisory_rating.rs and the conversion of item keys to atom identifiers in mp4/atom_info.rs. Simplified: one value and a list of one value are the same; the companion of a Tag is either an Ilst or something else.
* `ItemKeyModel.v`: Model of lofty/src/tag/item.rs: the keys and the mapping tables, transcribed by tools/gen_itemkey.py.
* `MathModel.v`: Model of lofty/src/util/math.rs.
* `Mp4Model.v`: Model of lofty/src/mp4/atom_info.rs, mp4/read/atom_reader.rs, mp4/read/mod.rs (without the audio properties, see [Mp4PropsModel.v]), mp4/moov.rs and mp4/ilst/read.rs. Simplified: the inner reader delivers all requested bytes at once (a cursor); sizes of allocations are not limited; a [DataType] is its number; one value and a list of one value are the same; the audio tracks are located but their content is not read; loops carry fuel, running out of it is [Panic].
* `Mp4PropsModel.v`: Model of lofty/src/mp4/properties.rs and of the part of mp4/read/mod.rs that calls it. Readers as in [Mp4Model.v]. An audio object type is its number. The count of bytes that the loops compare with the size of the parent is a u64 and taken not to overflow; sizes of allocations are not limited. Loops carry fuel, running out of it is [Panic].
* `Mp4WriteModel.v`: Model of lofty/src/mp4/write.rs, mp4/ilst/write.rs and mp4/read/mod.rs [atom_tree]. Simplified: atoms that grow to 4 GiB or more are not modelled ([MBig]); the target is little endian; the recursion over nested atoms carries fuel, running out of it is [Panic].
* `MpegModel.v`: Model of lofty/src/mpeg: header.rs, constants.rs, read.rs and properties.rs (the getters of the properties and of the file are not repeated). A reader is the file and a position; only the end of the file makes a read fail.
* `MusepackModel.v`: Model of lofty/src/musepack: read.rs, sv4to6/properties.rs, sv7/properties.rs, sv8/read.rs and sv8/properties.rs. The reader is the file and a position; only the end of the file makes a read fail. f64 arithmetic as in [AiffModel.v], f32 in the same way with 24 bits; the logarithm of the peaks of version 7 is a function [log_peak] that is given. [inflate] as in [FrameReadModel.v]. The derived writer of the file is not modelled (it is that of the tags).
* `OggFileModel.v`: Model of OGG files: lofty/src/ogg/read.rs, ogg/mod.rs [find_last_page], ogg/tag/write.rs [write], ogg/{opus,vorbis,speex}/mod.rs and their properties.rs, util/math.rs [div_round], properties/channel_mask.rs [from_opus_channels].
* `OggModel.v`: Model of the ogg_pager crate.
* `PictureModel.v`: Model of lofty/src/picture/mod.rs.
* `PopmModel.v`: Model of lofty/src/tag/items/popularimeter.rs.
* `ProbeModel.v`: Model of lofty/src/file/file_type.rs, probe.rs and resolve.rs: the type of a file by its content, its name, and by registered resolvers. Simplified: the inner reader is a cursor over bytes that never fails (positions are not limited to 64 bits); paths are Unix paths of scalar values; the map of resolvers is a list in the order in which it happens to be visited.
* `RfindModel.v`: Model of the reverse pattern search of lofty/src/util/io.rs (322-440) and of ogg/mod.rs [find_last_page].
* `SynchModel.v`: Model of lofty/src/id3/v2/util/synchsafe.rs.
* `TagModel.v`: Model of lofty/src/tag/mod.rs (Tag), the items of lofty/src/tag/item.rs and the conversions between Tag and Id3v1Tag (lofty/src/id3/v1/tag.rs).
* `TaggedModel.v`: Model of lofty/src/file/tagged_file.rs, tag/tag_ext.rs (save_to), tag/utils.rs (write_tag), tag/tag_type.rs (removal), util/io.rs (VerifiedFile) and the code that lofty_attr generates for the files of the formats (lofty_attr/src/lofty_file.rs, internal.rs; flac/mod.rs and flac/write.rs by hand). Simplified: what the writers of the formats do is a parameter [run] (they are modelled elsewhere), that gives the changes of the file for the type of the file, what is to be written and the content of the file (with an error it has changed nothing); companion tags are of any type; properties are not kept.
* `TextModel.v`: Model of lofty/src/util/text.rs. A Rust [String]/[&str] is its list of Unicode scalar values.
* `TimestampModel.v`: Model of lofty/src/tag/items/timestamp.rs.
* `TrimModel.v`: [str::trim] of std: removes characters with the Unicode property White_Space at both ends.
* `UserTextModel.v`: Model of the user defined texts and the pictures of an ID3v2 tag: lofty/src/id3/v2/frame/list.rs, get_texts 104-110, get_user_text 133-146, insert_user_text 171-177, remove_user_text 202-212, remove_picture_type 344-353, insert_picture 456-487. A picture is owned by its frame (the code does not find those that are borrowed).
* `VorbisModel.v`: Model of Vorbis comments: lofty/src/ogg/tag.rs, ogg/tag/read.rs, ogg/tag/write.rs (packets), ogg/picture_storage.rs.
* `WavPackModel.v`: Model of lofty/src/wavpack: read.rs and properties.rs. The reader is the file and a position; only the end of the file makes a read fail, and seeking past it does not. Allocation does not fail (a block is at most 1 MiB). An error in the sub-blocks of a block leaves the properties as they are at that point, so that [wv_meta] gives them with the error. f64 arithmetic as in [AiffModel.v]. The derived writer of the file is not modelled (it is that of the tags).

## Per-property plan

Every theorem named below is reported as `Closed under the global context` by `Print Assumptions`.

### C01 — Synchsafe integers: checked encoding is exact

*Status:* proved. *Theorems:* `C01_synch_exact`

Model the three macro instances with N.land/N.lor/N.shiftl; prove via mask/shift lemmas turned into div/mod arithmetic.

### C02 — Synchsafe integers: widening encoding never loses bits

*Status:* proved. *Theorems:* `C02_widening_exact`

Same arithmetic; a generic 7-bit-group value function is the specification.

### C03 — UnsynchronizedStream is independent of buffering

*Status:* proved. *Theorems:* `C03_stream_chunk_independent`, `C03_stream_total`

Model the loop as a state machine (buffered bytes, flag, inner reader as an arbitrary list of chunks); prove by induction it refines a pure two-state filter.

### C04 — Unsynchronised data decodes to the original

*Status:* proved. *Theorems:* `C04_unsynchronise_inverse`

Corollary of C03's pure filter by induction on the data.

### C05 — OGG page bytes round-trip

*Status:* proved. *Theorems:* `C05_page_roundtrip`, `C05_page_canonical`

Model reader as byte list + position; prove by computation over the fixed header and lemmas on little-endian fields.

*Note:* Both directions: read after write, and bytes that parse are exactly what writing the parsed page gives.

### C06 — paginate produces well-formed pages that carry exactly the packets

*Status:* proved. *Theorems:* `C06_paginate_wellformed`

Model the context record and loop with fuel = packet length; invariant by induction over packet chunks.

*Note:* Sequence numbers are stated modulo 2^32.

### C07 — Writing packets and reading them back is the identity

*Status:* partial. *Theorems:* `C07_packets_roundtrip_refuted`, `C07_packets_roundtrip_partial`

Compose C05/C06 with a model of read_count; expected to be false for empty packets (no page is emitted): refute that part with a witness and prove it for non-empty packets.

*Note:* Finding: empty packets are lost. Everything else is returned unchanged: the result is the list of non-empty packets.

### C08 — Page flags and granule positions of paginated packets

*Status:* partial. *Theorems:* `C08_flags`, `C08_granule_refuted`, `C08_granule_partial`

State over the model of C06. Expected to fail at exact multiples of 8160 (granule position) - refute and prove the rest.

*Note:* Finding: a packet whose length is a non-zero multiple of 8160 gets the granule position on its last full page although it ends on the following one. Flags are exact.

### C09 — OGG checksum is the specified CRC-32 and catches any single-byte corruption

*Status:* proved. *Theorems:* `C09_crc_is_polynomial`, `C09_crc_detects_bursts`, `C09_written_checksums`

Table copied from the source; finite check of the 256 entries against the bit-serial step, lifted by linearity; injectivity of the state step.

*Note:* Stronger: any change within a window of 4 bytes is detected.

### C10 — Packets::set/get behave like an indexed list

*Status:* proved. *Theorems:* `C10_set_get`, `C10_histories`

Refinement: abstraction from (content,sizes) to list of packets; each operation commutes.

### C11 — Latin-1 text encoding

*Status:* proved. *Theorems:* `C11_latin1_strict`, `C11_latin1_lossy`

Strings as lists of scalar values; induction.

### C12 — Text round-trips in every ID3v2 encoding

*Status:* proved. *Theorems:* `C12_text_roundtrip`, `C12_what_survives`, `C12_unrestricted_refuted`

Model UTF-8/UTF-16 codecs on scalar values; prove codec inverses; then induction. The unrestricted statement is refuted (U+FEFF is dropped, trailing NULs trimmed).

*Note:* The restriction in the statement is necessary: U+FEFF/U+FFFE inside UTF-16 text are dropped (refuted witness); C12_what_survives gives the exact result for every text written without terminator. Proved for both native byte orders.

### C13 — Decoding text never panics and is total

*Status:* proved. *Theorems:* `C13_decode_total`

Panic is a value in the model (slice indexing); prove unreachable.

### C14 — ID3v1 encoding is a 128-byte block

*Status:* proved. *Theorems:* `C14_block`

Direct model; length lemmas.

### C15 — ID3v1 round-trip up to the format's limits

*Status:* proved. *Theorems:* `C15_roundtrip`

Compose model of encode and parse; slice lemmas.

*Note:* In strict mode only for tags with a year, see C45.

### C16 — ID3v1 re-save is stable

*Status:* partial. *Theorems:* `C16_resave_refuted`, `C16_resave_partial`

Expected false for ID3v1.0 blocks whose comment uses bytes 29/30: refute, and prove the rest.

*Note:* Finding: a 29 or 30 character comment of an ID3v1.0 block loses its last characters. Proved for every block whose comment is at most 28 characters.

### C17 — Saving an ID3v1 tag touches only the trailing 128 bytes

*Status:* partial. *Theorems:* `C17_save`, `C17_shape_total`, `C17_empty_tag_unchanged_refuted`

File model with operation log. The empty-tag/no-block case is expected to be violated (an empty block is appended): refute.

*Note:* Finding: saving an empty tag to a file without ID3v1 tag appends an empty 128-byte block. All other parts proved, for every crash point.

### C18 — Timestamp display/parse round-trip

*Status:* proved. *Theorems:* `C18_roundtrip`, `C18_from_str`, `C18_verify_exact`

Model parse over bytes with explicit fields; case analysis on present fields, arithmetic on digits.

### C19 — Timestamp order is the lexicographic order of its text

*Status:* proved. *Theorems:* `C19_order`, `C19_total_order`

Lexicographic comparison lemma on fixed-width digit fields.

### C20 — Timestamp parsing never panics and bounds its fields

*Status:* proved. *Theorems:* `C20_parse_total`

Panic as value; invariants of segment.

### C21 — Star ratings survive conversion

*Status:* proved. *Theorems:* `C21_star_ratings`

Finite domain: exhaustive computation lifted to a forall.

### C22 — Popularimeter text form round-trips

*Status:* partial. *Theorems:* `C22_text_partial`, `C22_text_refuted`, `C22_empty_email_refuted`

Model decimal printing/parsing and splitn. Expected false for an email containing '|': refute; prove for the rest.

*Note:* Findings: an email containing '|' breaks parsing; an empty email comes back as none.

### C23 — ItemKey mapping tables are mutually consistent

*Status:* partial. *Theorems:* `C23_tables`, `C23_from_key_mapped`, `C23_all_variants`, `C23_first_variant_refuted`

Tables generated from the source text by script into Coq; finite exhaustive check. Exceptions are listed explicitly in the specification.

*Note:* Proved with the exceptions listed in ItemKeyThm.exceptions. Finding: for a format key with several meanings the later row wins, not the first as item.rs says (e.g. from_key(Ape, "Track") is TrackTotal).

### C24 — ItemKey::from_key is case-insensitive and independent of hash order

*Status:* proved. *Theorems:* `C24_order_and_case`

Model HashMap as an arbitrary permutation of its entries; uniqueness of lowercase keys by computation.

### C25 — Tag::insert / get / remove laws

*Status:* proved. *Theorems:* `C25_insert`, `C25_push`, `C25_remove_key`

List model; induction.

### C26 — Tag::take_filter returns selected items in order and preserves the rest's order

*Status:* partial. *Theorems:* `C26_take_filter_partial`, `C26_take_partial`, `C26_order_refuted`

Model the swap loop on lists. The documentation's ordering claim about the remaining items is expected to be false: refute; prove order of the taken items and that the rest is a permutation.

*Note:* Finding: the remaining items do not keep their order ([A,B,K] becomes [B,A]). Proved, also for filters with state: the taken items in order, the rest as a permutation.

### C27 — Tag::re_map keeps exactly the supported items

*Status:* proved. *Theorems:* `C27_re_map`

List model over the generated key tables.

### C28 — APE tag dump/read round-trip

*Status:* proved. *Theorems:* `C28_roundtrip`, `C28_dump_total`

Model writer and reader on byte lists with position; induction over items.

*Note:* Holds wherever the tag is in the stream and from either end. The read-only flag of the whole tag is not restored (C67).

### C29 — APE item keys stay unique ignoring case

*Status:* proved. *Theorems:* `C29_unique`, `C29_read_unique`, `C29_get`

Invariant by induction over operations.

*Note:* All operations of ApeTag including the conversions, and any bytes read.

### C30 — APE multi-value text

*Status:* proved. *Theorems:* `C30_text_values`

Induction with a split/join lemma.

*Note:* Starting from any tag without the key; other keys are unchanged.

### C31 — APE track/disc number pairs

*Status:* proved. *Theorems:* `C31_number_pairs`

Decimal print/parse lemmas; state model.

*Note:* From every tag state, for the track and disc keys (stated for any key). set_*_total on a tag without number makes the number 0.

### C32 — ID3v2 tag restrictions byte

*Status:* proved. *Theorems:* `C32_restrictions`

Exhaustive computation lifted.

### C33 — ID3v2 header flags survive a write/read cycle

*Status:* partial. *Theorems:* `C33_v24_flags`, `C33_v23_flags_partial`, `C33_v23_experimental_refuted`

Model parse; ID3v2.3 is expected to be violated (experimental is written on the extended-header bit): refute.

*Note:* Finding: ID3v2.3's experimental flag is written on the extended header bit. ID3v2.4 fully proved.

### C34 — ID3v2 header sizes are sane

*Status:* proved. *Theorems:* `C34_sizes`

Direct proof over the parse model.

### C35 — Lyrics3v2 blocks are recognised and skipped

*Status:* partial. *Theorems:* `C35_never_recognised`, `C35_recognised_refuted`

Expected false: the code compares an 8-byte slice with a 9-byte literal. Prove that no block is ever recognised.

*Note:* Refuted: an 8-byte slice is compared with the 9-byte literal, so no Lyrics3v2 block is ever recognised (C35_never_recognised gives the actual result for every stream).

### C36 — 80-bit float conversion

*Status:* partial. *Theorems:* `C36_normal_partial`, `C36_special_partial`, `C36_out_of_range_refuted`, `C36_sign_refuted`, `C36_unnormal_refuted`, `C36_infinity_refuted`

Bit-level model of the f64 fields. The out-of-range part is expected to be violated: refute.

*Note:* Proved for normalised values in the f64 range and for zero, infinity (zero fraction) and NaN. Findings: exponents outside the range wrap into the sign bit; unnormalised fractions; infinity with the integer bit set becomes NaN.

### C37 — Rounded division

*Status:* proved. *Theorems:* `C37_div_round`, `C37_doc_note_refuted`

lia/nia over N with explicit overflow.

*Note:* The documentation's note that the result is never zero is refuted separately.

### C38 — UnsynchronizedStream survives an interrupted inner read

*Status:* partial. *Theorems:* `C38_interrupted_read_refuted`

Same state machine as C03 with an inner reader that may return Interrupted. Expected false: bytes already copied into the caller's buffer are dropped when the refill fails. Refuted with a witness.

*Note:* Refuted: the full statement is false of the code; nothing beyond C03 is proved for interrupted readers.

### C39 — Packets::read cuts any page sequence as the lacing values say

*Status:* proved. *Theorems:* `C39_read_follows_lacing`

Prove the read loop computes `delace` (specification of lacing) by induction on pages and segments.

### C40 — Packets::read_count(n) returns the first n packets

*Status:* proved. *Theorems:* `C40_read_count_prefix`

As C39 with the early-stop argument.

### C41 — Reading OGG packets is total and yields a consistent value

*Status:* proved. *Theorems:* `C41_read_total`

Invariant: sizes sum to at most the content length.

### C42 — Text encoding errors report the byte index of the first unencodable character

*Status:* partial. *Theorems:* `C42_error_byte_index_refuted`, `C42_error_byte_index_partial`

Expected false: the index counts characters, but U+0080..U+00FF take two bytes in a &str. Refute, and prove it for ASCII prefixes.

*Note:* Finding: valid_up_to is a character index.

### C43 — UTF-8 text is accepted exactly when well-formed

*Status:* proved. *Theorems:* `C43_utf8_decode_exact`

Inductive specification of the octet sequences; equivalence with the decoder.

### C44 — UTF-16 strings after the first may omit the byte order mark

*Status:* proved. *Theorems:* `C44_utf16_maybe_bom`

Direct proof over the chunk reader.

### C45 — ID3v1 tags written by the library are readable in strict mode

*Status:* partial. *Theorems:* `C45_strict_mode_reads_own_output_refuted`, `C45_strict_mode_reads_own_output_partial`

Expected false for tags without a year (written as NULs, rejected in strict mode): refute, prove for tags with a year.

*Note:* Finding: tags without year.

### C46 — Id3v1Tag accessors: get after set

*Status:* partial. *Theorems:* `C46_set_track_refuted`, `C46_accessors_partial`

set_track truncates to u8 silently: refute for n > 255; prove the rest.

*Note:* Finding: set_track keeps only the low 8 bits.

### C47 — ID3v1 parsing is total and bounded

*Status:* proved. *Theorems:* `C47_parse_total`

Field decomposition of the block; arithmetic bound for the year fold.

### C48 — What strict timestamp parsing accepts

*Status:* proved. *Theorems:* `C48_strict_sound`, `C48_strict_complete`, `C48_normal_form`

Soundness of the digit loop in strict mode; reuse of the round-trip lemma.

### C49 — Unpadded fields in lenient modes

*Status:* partial. *Theorems:* `C49_lenient_partial`, `C49_lenient_refuted`

Expected false for the last field ('2024-6' is too short and the month is dropped): refute; prove for every spelling whose last field is not a bare digit.

*Note:* Finding: a bare digit in the last field is silently dropped.

### C50 — A stored star rating reads back with the same stars

*Status:* proved. *Theorems:* `C50_stored_rating`

Same provider is chosen on both sides because the email is the same.

### C51 — Where searching an ID3v2 tag leaves the stream, and its full size

*Status:* partial. *Theorems:* `C51_end_of_tag_partial`, `C51_full_tag_size_partial`, `C51_end_of_tag_refuted`, `C51_full_tag_size_refuted`

Expected false with an extended header (its size is already included in `size`): refute; prove without.

*Note:* Finding: extended header counted twice. Proved without extended header.

### C52 — After the ID3v2 header the reader is at the first frame

*Status:* partial. *Theorems:* `C52_ext24_partial`, `C52_update_flag_refuted`, `C52_ext23_never`, `C52_ext23_unsync_refuted`

Specify both layouts; prove for ID3v2.4 without update flag, refute for the update flag, show that every ID3v2.3 extended header leaves the reader elsewhere.

*Note:* Findings: ID3v2.4 update flag, every ID3v2.3 extended header, unsynchronised ID3v2.3 extended header. Proved for ID3v2.4 without update flag.

### C53 — find_id3v2 without a tag does not move

*Status:* partial. *Theorems:* `C53_unchanged_partial`, `C53_unchanged_refuted`, `C53_bad_extended_header_refuted`

Expected false for streams shorter than 10 bytes and after extended header errors: refute; prove with at least 10 bytes and no extended header.

*Note:* Findings: fails on streams shorter than 10 bytes; moves after extended header errors.

### C54 — The search for ID3v2 in junk finds the first marker

*Status:* proved. *Theorems:* `C54_junk_search`, `C54_junk_then_tag`

Invariant of the two-byte sliding window.

### C55 — TagItem::new_checked agrees with Tag::insert

*Status:* partial. *Theorems:* `C55_new_checked_partial`, `C55_id3v1_never`, `C55_new_checked_refuted`

Expected false for ID3v1 (new_checked uses map_key, insert uses VALID_ITEMKEYS): refute; prove for the others.

*Note:* Finding: new_checked never accepts anything for ID3v1. Proved for the other types.

### C56 — FLAC picture block round-trip

*Status:* partial. *Theorems:* `C56_flac_picture`, `C56_unrestricted_refuted`

Parse the encoded fields in order; base64 inverse by groups of three. Restricted to what the encoding can represent (no empty description, canonical MIME and type); refute without.

*Note:* Proved for representable pictures (no empty description, canonical type and MIME type, sizes below 2^32); refuted without.

### C57 — Reading a FLAC picture block never panics

*Status:* proved. *Theorems:* `C57_flac_picture_total`

Case analysis over the reads; the size arithmetic must not overflow.

### C58 — APE picture round-trip

*Status:* partial. *Theorems:* `C58_ape_picture_partial`, `C58_ape_description_refuted`, `C58_ape_read_total`

Expected false for non-ASCII descriptions (written as UTF-8, read as Latin-1): refute; prove for ASCII descriptions and data starting with a known signature.

*Note:* Finding: the description is written as UTF-8 and read as Latin-1. Proved for ASCII descriptions; totality proved for all input.

### C59 — PNG picture information

*Status:* partial. *Theorems:* `C59_png_partial`, `C59_png_palette`, `C59_png_grey_alpha_refuted`, `C59_png_total`

Expected false for greyscale with alpha (depth times 4): refute; prove the other colour types, and palette files with any chunks before PLTE.

*Note:* Finding: greyscale with alpha reports depth times 4. Proved for all other colour types; totality for all input.

### C60 — JPEG picture information

*Status:* partial. *Theorems:* `C60_jpeg_partial`, `C60_jpeg_total_refuted`

Prove the result for well-formed files. Expected panics: segment length below 2 (u16 underflow) and precision * components (u8 overflow): refute totality.

*Note:* Findings: panics on a segment length below 2 and on precision times components above 255 (checked arithmetic). Proved for well-formed files.

### C61 — Picture type codes and APE keys are inverse

*Status:* proved. *Theorems:* `C61_picture_types`

Exhaustive over the named types; the rest by cases.

### C62 — Picture::from_reader recognises only by signature

*Status:* proved. *Theorems:* `C62_sniff`

Cases over the eight first bytes.

### C63 — A tag only ever holds items its type supports

*Status:* proved. *Theorems:* `C63_supported_items`

Invariant by induction over the history.

### C64 — Tag accessors are a consistent store

*Status:* partial. *Theorems:* `C64_text`, `C64_number`, `C64_date_partial`, `C64_date_refuted`, `C64_support`

Get/insert laws plus the number and timestamp round-trips. Dates: expected to fail for timestamps that are not valid (set_date accepts them): refute; prove for valid ones.

*Note:* Text and numbers proved; dates proved for valid timestamps, refuted for others (set_date accepts them).

### C65 — Id3v1Tag to Tag to Id3v1Tag

*Status:* partial. *Theorems:* `C65_id3v1_roundtrip_partial`, `C65_unrestricted_refuted`

Expected false for genre codes outside the table: refute; prove for genres in the table.

*Note:* Proved for genres in the table (and numbers within their Rust type); genre codes above 191 are lost.

### C66 — Saving a Tag as ID3v1 equals converting it first

*Status:* partial. *Theorems:* `C66_same_fields_partial`, `C66_first_artist_refuted`, `C66_locator_refuted`

Expected false: take_strings reorders later items (the second artist is taken) and also takes locators: refute both; prove with at most one text item per field.

*Note:* Findings: with two artists before the title the conversion takes the second artist; locators are taken by one path only. Proved with at most one text item per field.

### C67 — The read-only flag of an APE tag survives

*Status:* partial. *Theorems:* `C67_read_only_refuted`, `C67_never_read_only`

Expected false: the flag is written but the reader never looks at it. Refute; prove that no tag read is ever read-only.

*Note:* Refuted: the flag is written but never read; no tag read is ever read-only.

### C68 — respect_read_only keeps the read-only items of the old APE tag

*Status:* partial. *Theorems:* `C68_respect_read_only_refuted`, `C68_old_items_irrelevant`

Expected false: create_ape_tag ignores the items found (TODO in the code). Refute; prove that the output does not depend on the old items.

*Note:* Refuted: read-only items of the old tag are always dropped; what is written does not depend on the old items.

### C69 — Saving an APE tag replaces the old one and keeps every other byte

*Status:* partial. *Theorems:* `C69_save_partial`, `C69_no_header_refuted`, `C69_unread_tag_refuted`, `C69_overlap_refuted`

Prove for a tag as lofty writes it (or none) after the audio. Expected false for tags without header (32 bytes of audio deleted), when tags are not read, and when the tag starts at offset 8: refute.

*Note:* Proved for audio + (no tag or a tag written by lofty, below 2^32 bytes) + optional ID3v1 tag, possibly after an ID3v2 tag. Refuted: a version 2 tag without header makes saving delete 32 bytes of audio; with read_tags(false) a second tag is appended; a tag starting 8 bytes into the file cuts the new tag or panics.

### C70 — Reading APE data never panics

*Status:* partial. *Theorems:* `C70_read_tag_total`, `C70_read_file_refuted`

Prove for read_ape_tag. The file reader subtracts the footer size unchecked (panics in debug builds, wraps in release builds): refute.

*Note:* Proved for read_ape_tag. Refuted for ApeFile::read_from: with an ID3v2 tag in front, a footer claiming the whole file underflows the stream length.

### C71 — A crash while saving an APE tag does not lose the audio

*Status:* partial. *Theorems:* `C71_crash_refuted`, `C71_complete`

Expected false: the file is truncated to 0 before it is written again. Refute for every successful save.

*Note:* Refuted for every successful save: the file is empty after the first operation. Without a crash the content is as computed.

### C72 — APE files with the tag at the start can be read and saved

*Status:* partial. *Theorems:* `C72_leading_tag_unreadable`, `C72_leading_tag_refuted`, `C72_leading_tag_saved_refuted`

Expected false: the loop never reads the next four bytes, and the writer skips 8 bytes before looking. Prove that no such file can be read.

*Note:* Refuted: no file starting with an APE tag can be read, and saving adds a second tag.

### C73 — ApeTag and Tag conversions keep the information

*Status:* partial. *Theorems:* `C73_split_merge_partial`, `C73_texts_partial`, `C73_pictures_refuted`, `C73_fields_refuted`

Prove for the keys stored one text per key; refute for pictures, year, read-only items and track texts that are not numbers.

*Note:* Proved for plain keys (not track, disc, movement, compilation), table spelling and items that are not read-only. Refuted: pictures never come back, a year becomes a recording date, the read-only flag of items and non-numeric tracks are lost.

### C74 — Saving a Tag as APE equals converting it first

*Status:* partial. *Theorems:* `C74_same_items_partial`, `C74_multi_value_refuted`, `C74_pictures_refuted`

Expected false: values of one key are written as separate items of which reading keeps the last, pictures are not written. Refute; prove for one value per key.

*Note:* Proved for one value per key without pictures, pairs and flag. Refuted: of several values only the last can be read back; pictures are not written.

### C75 — Reverse search finds the last match in the window

*Status:* partial. *Theorems:* `C75_finds_last`, `C75_position_refuted`

Prove against 'last position in the window where the pattern occurs'. The documented restoring of the position is expected false: refute.

*Note:* The search itself is proved for all inputs; refuted: without a match the reader is not back where it was.

### C76 — Replacing a range of a FLAC file in place

*Status:* proved. *Theorems:* `C76_replace_range`, `C76_as_used`

Prove that the logged operations applied to the file give the spliced content, for every buffer size; a range outside the file is refused.

*Note:* For every buffer size, including the one used.

### C77 — A crash while a FLAC file is rewritten does not lose audio

*Status:* partial. *Theorems:* `C77_crash_atomic_refuted`, `C77_crash_keeps_tail_refuted`, `C77_front_is_safe`

Expected false: refute. Prove that the bytes before the range are never touched.

*Note:* Refuted: bytes after the range can be lost. Bytes before the range are safe at every crash point.

### C78 — Vorbis comments survive a write/read cycle

*Status:* partial. *Theorems:* `C78_packet_roundtrip_partial`, `C78_empty_left_out`, `C78_unrestricted_refuted`, `C78_leading_zero_refuted`

Prove for representable tags; refute for empty values and for numbers with leading zeros.

*Note:* Proved for non-empty values without trailing null, valid names, and names without special treatment; with conversions on also TRACKNUMBER and DISCNUMBER, each once, as decimals without leading zeros or as texts that are no number. Refuted: empty values are dropped, 01 becomes 1.

### C79 — Number pairs in Vorbis comments

*Status:* partial. *Theorems:* `C79_pair`, `C79_kept`, `C79_all_kept_refuted`

Prove from every tag state. That several fields are all kept is expected false: refute.

*Note:* The pair and the kept texts are proved from every state. Refuted: a second TRACKNUMBER field replaces the first.

### C80 — Reading Vorbis comments never panics

*Status:* partial. *Theorems:* `C80_read_total_partial`, `C80_read_total_refuted`

Expected false: the COVERART field with an image below eight bytes panics. Refute and prove that it is the only way.

*Note:* Refuted: COVERART=QUJD panics. Any panic comes from such a field, with cover art reading on.

### C81 — Fields of Vorbis comments in memory

*Status:* partial. *Theorems:* `C81_get`, `C81_insert`, `C81_push`, `C81_numbers`, `C81_date_partial`, `C81_independent_partial`, `C81_len`, `C81_contains`, `C81_other_fields_refuted`, `C81_date_refuted`

Prove against a relation 'the values of a field in order'. Independence only up to order (see C82).

*Note:* Dates must be valid (C64); independence holds for fields with one value, and up to order in general (C82). Refuted: setting the date can change which value of another field comes first; a day without a month is lost.

### C82 — Removing a field of Vorbis comments

*Status:* partial. *Theorems:* `C82_remove_partial`, `C82_other_fields_refuted`, `C82_set_track_refuted`

Prove up to the order of what remains; the order is expected to change (swaps): refute.

*Note:* Refuted: removing one field swaps others, so another name can read differently afterwards; set_track does this too.

### C83 — Every field that is read can be reached

*Status:* partial. *Theorems:* `C83_names_partial`, `C83_reachable_refuted`

Prove that the characters are valid; the empty name is accepted by the reader only: refute.

*Note:* Refuted: a comment beginning with '=' is kept under the empty name.

### C84 — Merging a Tag into Vorbis comments

*Status:* partial. *Theorems:* `C84_merge_partial`, `C84_encoder_partial`, `C84_order_refuted`

Prove exactly without encoder, up to order with one. The order is expected to change: refute.

*Note:* Plain keys only. With an encoder the fields are permuted: the first artist can change. Pictures below eight bytes are dropped.

### C85 — Vorbis comments survive splitting and merging

*Status:* partial. *Theorems:* `C85_split_merge_partial`, `C85_order_refuted`, `C85_encoder_refuted`, `C85_rating_refuted`, `C85_pictures_refuted`

Prove up to order for fields with canonical names that are not ENCODER, RATING, COMPILATION; refute order, encoder, rating and pictures.

*Note:* Refuted: order, vendor with an ENCODER field, RATING without address, stored picture dimensions, small pictures.

### C86 — Saving a Tag as Vorbis comments equals converting it first

*Status:* partial. *Theorems:* `C86_direct_partial`, `C86_direct_refuted`

Prove for plain keys and pictures of at least eight bytes; refute for encoder, flag and rating.

*Note:* Refuted: the encoder is stored twice; flags and ratings are stored raw.

### C87 — Picture storage of Vorbis comments and FLAC

*Status:* partial. *Theorems:* `C87_insert`, `C87_icons_unique`, `C87_failure_refuted`, `C87_set_partial`, `C87_set_refuted`, `C87_remove_type`

Prove each; failure atomicity and uniqueness under set are expected false: refute.

*Note:* Refuted: a failed insertion has removed the old icon; set_picture can create a second icon.

### C88 — FLAC metadata blocks round trip

*Status:* proved. *Theorems:* `C88_block_roundtrip`

Prove.

### C89 — Saving a FLAC file touches only comments, pictures and padding

*Status:* proved. *Theorems:* `C89_save`, `C89_nothing`

Prove, with the file described by an inductive format.

*Note:* The comment blocks already present must hold a vendor string; the encoded blocks must be below 16 MiB.

### C90 — A saved FLAC file reads back as saved

*Status:* partial. *Theorems:* `C90_roundtrip_partial`, `C90_vendor_refuted`, `C90_tagged_file`

Prove for representable tags with the vendor retained; refute that the vendor of the tag is stored.

*Note:* For tags as in C78 and pictures as in C56. Refuted: the vendor of the tag is ignored if the file has comments.

### C91 — Reading and saving FLAC files is total

*Status:* partial. *Theorems:* `C91_read_total_partial`, `C91_read_total_refuted`, `C91_write_total`

Prove for saving, and for reading except for the panic of C80; refute in general.

*Note:* Saving never panics. Reading panics only through COVERART fields (C80).

### C92 — Removing everything and saving removes it from the FLAC file

*Status:* partial. *Theorems:* `C92_removed_is_saved_refuted`, `C92_empty_tag_clears_partial`

Refute; prove for an emptied tag.

*Note:* Refuted: without tag and pictures nothing is written, the old ones stay in the file. An emptied tag clears them.

### C93 — Padding absorbs changes of FLAC metadata

*Status:* proved. *Theorems:* `C93_padding_absorbs`

Prove.

### C94 — FLAC properties are those of STREAMINFO

*Status:* proved. *Theorems:* `C94_properties`

Prove against the bit layout of the format.

*Note:* Files below 2^61 bytes.

### C95 — Saving an OGG file replaces the comment packet and nothing else

*Status:* proved. *Theorems:* `C95_save`

Prove, with the file described by its pages.

*Note:* Identification and setup packets must not be empty. The length of the file is bounded by the 32-bit sequence numbers.

### C96 — Saving an OGG file loses no data

*Status:* partial. *Theorems:* `C96_after_junk_refuted`, `C96_shared_page_refuted`, `C96_other_streams_refuted`, `C96_opus_extra_refuted`

Look for counterexamples; C95 gives the files for which it holds.

*Note:* Refuted in four ways; C95 is what holds.

### C97 — A crash while saving an OGG file

*Status:* proved. *Theorems:* `C97_crash`

Prove that the empty file is among them whenever saving would succeed.

*Note:* The file is truncated before it is written: a crash can leave nothing.

### C98 — A saved OGG file reads back as saved

*Status:* partial. *Theorems:* `C98_read_back`, `C98_vendor_refuted`

Prove with the vendor of the file; refute that the tag's vendor is stored.

*Note:* For tags as in C78. Refuted: the vendor of the tag is ignored.

### C99 — Saving an OGG file twice is like saving it once

*Status:* proved. *Theorems:* `C99_idempotent`

Prove.

*Note:* For files as in C95.

### C100 — The last page of an OGG file is found

*Status:* partial. *Theorems:* `C100_last_page`, `C100_last_page_plain`, `C100_fake_page_refuted`, `C100_near_end_refuted`

Prove when any later capture pattern is followed by what cannot be a header; refute with a fake header and with a pattern near the end of the file.

*Note:* Refuted: page checksums are not compared, so packet bytes can pose as a page; a pattern in the last 26 bytes makes the search fail.

### C101 — Properties of OGG files

*Status:* proved. *Theorems:* `C101_opus`, `C101_vorbis`, `C101_speex`

Prove for files with a positive duration.

*Note:* For files in which the last page can be found and the duration is positive.

### C102 — Reading OGG files is total

*Status:* partial. *Theorems:* `C102_read_total_partial`, `C102_opus_channels_refuted`, `C102_opus_short_refuted`, `C102_speex_short_refuted`

List all causes of a panic and prove that there are no others; refute in general.

*Note:* Panics: COVERART fields (C80), Opus with no or more than eight channels, Opus and Speex shorter than half a millisecond, durations near 2^64.

### C103 — Every chunk of an IFF file is visited

*Status:* partial. *Theorems:* `C103_all_chunks`, `C103_well_formed`, `C103_pad_refuted`

Prove for chunks with a zero pad byte or none at all; refute for another pad byte.

*Note:* Refuted for a pad byte that makes an identifier with the following bytes.

### C104 — RIFF INFO lists survive writing and parsing

*Status:* proved. *Theorems:* `C104_roundtrip`

Prove.

*Note:* For values that do not end with a null character; empty values are not written.

### C105 — Saving a RIFF INFO list changes only that list

*Status:* partial. *Theorems:* `C105_new_list`, `C105_list_replaced`, `C105_read_back`, `C105_second_list_refuted`, `C105_odd_list_refuted`, `C105_panic_refuted`

Prove for one list of even size; refute for odd and for several lists; find the files that make it panic.

*Note:* Refuted: a second list stays, an odd list leaves its pad byte behind, three kinds of files make it panic.

### C106 — Saving an ID3v2 chunk changes only that chunk

*Status:* partial. *Theorems:* `C106_added`, `C106_moved`, `C106_last`, `C106_nothing_to_remove`, `C106_removed`, `C106_growth_refuted`, `C106_growth_example`, `C106_junk_refuted`, `C106_junk_example`

Prove where it holds; refute for a growing tag at the end and for padding in the middle.

*Note:* Refuted for every growing tag at the end of the file (size field wrong or panic) and for every shrinking tag replaced in the middle of a WAV file with padding (JUNK chunk too large by 8).

### C107 — AIFF text chunks survive writing and reading

*Status:* partial. *Theorems:* `C107_roundtrip`, `C107_odd_comment_refuted`

Prove if only the last comment may have an odd length; refute otherwise.

*Note:* Refuted: after a comment of odd length the next is misread. Empty lists of annotations and comments are read as none.

### C108 — Saving AIFF text chunks changes only them

*Status:* partial. *Theorems:* `C108_new_text`, `C108_text_replaced`, `C108_read_back`, `C108_trailing_refuted`

Prove; refute for bytes behind the FORM chunk.

*Note:* Refuted: up to 7 bytes behind the FORM chunk are counted into its size.

### C109 — An interrupted save of a WAV or AIFF file does not lose data

*Status:* partial. *Theorems:* `C109_riff_refuted`, `C109_id3_refuted`, `C109_aiff_refuted`, `C109_last_chunk_safe`

Refute for all saves that write the file anew; prove for an ID3v2 chunk at the end of the file.

*Note:* Refuted for every save of INFO lists and text chunks; proved for an ID3v2 chunk at the end.

### C110 — Properties of WAV files

*Status:* partial. *Theorems:* `C110_pcm`, `C110_file`, `C110_channels_refuted`

Prove for fewer than 256 channels; refute for more.

*Note:* For other files than PCM and float see C234.

### C111 — Properties of AIFF files

*Status:* partial. *Theorems:* `C111_properties`, `C111_bitrates`, `C111_nearest`, `C111_duration_refuted`, `C111_rate_refuted`

Prove with a model of f64 arithmetic that the duration is rounded down; refute rounding to the nearest and exponents out of range.

*Note:* Proved for sample rates that are whole numbers. The bit rates are within 1/2 + 2^-17 of the exact value, which is the nearest whole number unless that is closer than this to a tie.

### C112 — Reading WAV and AIFF files never panics

*Status:* proved. *Theorems:* `C112_wav`, `C112_aiff`

Prove, given an ID3v2 parser that does not panic.

*Note:* For WAV, file lengths below 2^57. The ID3v2 parser is a parameter that must not panic.

### C113 — Items of RIFF INFO lists

*Status:* partial. *Theorems:* `C113_insert`, `C113_remove`, `C113_bad_key`, `C113_case_refuted`, `C113_duplicate_refuted`

Prove for distinct keys; refute for case and duplicates.

*Note:* Refuted for keys in other case and for lists with duplicate keys.

### C114 — iTunes metadata lists survive writing and reading

*Status:* partial. *Theorems:* `C114_builds`, `C114_roundtrip`, `C114_utf16_refuted`, `C114_empty_refuted`, `C114_bool_refuted`

Prove for items of the usual form; refute for UTF-16, empty values and booleans outside flags.

*Note:* Refuted for UTF-16 text, empty values and booleans outside the five flag items.

### C115 — Numbers in iTunes metadata items

*Status:* partial. *Theorems:* `C115_unsigned`, `C115_signed`, `C115_one_byte_refuted`

Prove for unsigned values and signed values of two to four bytes; refute for one signed byte.

*Note:* Refuted for every negative number in one byte.

### C116 — Saving a tag to an MP4 file that has one

*Status:* proved. *Theorems:* `C116_saved`, `C116_read_back`

Prove for any tree of atoms below 4 GiB.

*Note:* For files below 4 GiB with 32-bit atom sizes, a padding of 0 or at least 8 bytes.

### C117 — Chunk offsets stay right when an MP4 tag changes size

*Status:* partial. *Theorems:* `C117_offsets`, `C117_tables`, `C117_co64_refuted`, `C117_fragments_refuted`

Prove for stco tables; refute for co64 tables and movie fragments.

*Note:* Refuted for co64 tables (the entry count is read from the first offset) and fragments (the header is never found).

### C118 — Saving a tag to an MP4 file that has none

*Status:* partial. *Theorems:* `C118_udta_added`, `C118_udta_read_back`, `C118_meta_added`, `C118_offsets_refuted`

Prove the content; refute that chunk offsets are updated.

*Note:* Refuted: media data behind moov moves and no table is changed.

### C119 — Removing the tag of an MP4 file

*Status:* proved. *Theorems:* `C119_removed`

Prove.

### C120 — The atoms of an MP4 file are found

*Status:* partial. *Theorems:* `C120_tree`, `C120_extended_refuted`, `C120_to_end_refuted`

Prove for 32-bit sizes; refute for 64-bit sizes and for atoms that extend to the end of the file.

*Note:* Refuted: a file with an atom with a 64-bit size before moov cannot be read at all; the length of an atom of size 0 is 8 too small.

### C121 — A crash while saving an MP4 file does not lose it

*Status:* partial. *Theorems:* `C121_rewrites`, `C121_crash_refuted`

Refute for every save that writes anything.

*Note:* Refuted for every save: the file is emptied first.

### C122 — Saving to an MP4 file whose meta atom has no list

*Status:* partial. *Theorems:* `C122_first_replaced_refuted`

Refute in general: the first atom is always taken for the list.

*Note:* Refuted for all such files: the first atom, usually the handler, is replaced or removed.

### C123 — Items that are not understood do not hide others

*Status:* partial. *Theorems:* `C123_swallowed_refuted`

Refute in general: the next item is always skipped too.

*Note:* Refuted for every such item followed by another.

### C124 — The tag of a track is not the tag of the file

*Status:* partial. *Theorems:* `C124_track_tag_refuted`

Refute.

*Note:* Refuted: what follows mdia in a track is taken for a child of moov.

### C125 — Removing and replacing an MP4 item leaves the others alone

*Status:* partial. *Theorems:* `C125_remove`, `C125_replace`, `C125_other_partial`, `C125_other_refuted`, `C125_order_refuted`

Prove up to order. Refute that the order of the others is kept, and so that setting one field cannot change another one.

*Note:* Refuted: with two artists, setting the title changes the artist, as removal swaps items.

### C126 — MP4 accessors return what was set

*Status:* partial. *Theorems:* `C126_text`, `C126_numbers`, `C126_large_refuted`, `C126_remove_total_refuted`, `C126_date`, `C126_utf16_date_refuted`

Prove for numbers below 65536. Refute larger numbers, removal of a total, dates stored as UTF-16.

*Note:* Refuted for numbers above 65535 (cut to 16 bits), for removing a total (0 stays) and for UTF-16 dates.

### C127 — MP4 flags

*Status:* proved. *Theorems:* `C127_flags`

Prove.

### C128 — MP4 advisory rating

*Status:* proved. *Theorems:* `C128_rating`

Prove.

### C129 — Inserting adds values

*Status:* proved. *Theorems:* `C129_insert`, `C129_picture`

Prove.

### C130 — Removing all pictures from an MP4 tag

*Status:* partial. *Theorems:* `C130_remove_pictures_partial`, `C130_remains_refuted`, `C130_text_lost_refuted`

Prove for items with one sort of value. Refute in general both ways.

*Note:* Refuted for items whose first value is of another sort than a later one.

### C131 — A generic tag from an MP4 tag

*Status:* partial. *Theorems:* `C131_split`, `C131_numbers`, `C131_picture_dropped_refuted`, `C131_text_dropped_refuted`, `C131_text_number_refuted`

Prove. Refute that no value is dropped and that a track number stored as text is the track number.

*Note:* Refuted: a picture in another item and a text in the cover item are dropped; a track number stored as text becomes the track total.

### C132 — An MP4 tag from a generic tag

*Status:* partial. *Theorems:* `C132_texts`, `C132_pictures`, `C132_numbers`, `C132_rating`, `C132_rest`, `C132_locator_refuted`, `C132_large_number_refuted`

Prove. Refute for locator items and numbers above 65535.

*Note:* Refuted: locator items and numbers that do not fit in 16 bits are dropped.

### C133 — MP4 tag to generic tag and back

*Status:* partial. *Theorems:* `C133_texts`, `C133_same_texts`, `C133_pictures`, `C133_rest`, `C133_values`, `C133_numbers`, `C133_rating`, `C133_one_atom_refuted`, `C133_title_refuted`, `C133_not_preserved_refuted`

Prove value by value. Refute that items with several values stay one item, that the title accessor returns the same, and that anything unknown survives without the option.

*Note:* Refuted as planned: a title followed by a number in the same item is no longer the title afterwards.

### C134 — Generic tag to MP4 tag and back

*Status:* partial. *Theorems:* `C134_texts`, `C134_pictures`, `C134_keys`, `C134_numbers`, `C134_rating`, `C134_zero_refuted`

Prove with the exact set of keys and values. Refute for numbers that are 0.

*Note:* Refuted for number 0. Unsynchronised lyrics come back as lyrics (C134_keys).

### C135 — ID3v2 frame ids

*Status:* proved. *Theorems:* `C135_ids`, `C135_upgrades`

Prove.

### C136 — ID3v2 frame flags

*Status:* proved. *Theorems:* `C136_written`, `C136_read`

Prove.

### C137 — ID3v2 frame headers

*Status:* proved. *Theorems:* `C137_header`

Prove.

### C138 — ID3v2 frame contents

*Status:* proved. *Theorems:* `C138_content`, `C138_written`

Prove with the exact condition per kind (FrameSpec.content_ok); state refutations of the unconditional claims separately.

### C139 — An ID3v2.4 tag is read back as it was

*Status:* proved. *Theorems:* `C139_tag`, `C139_written`

Prove for the flags whose content can be written (not encryption, compression and the like, nor the extended header).

### C140 — An ID3v2.3 tag is read back as far as that version allows

*Status:* proved. *Theorems:* `C140_tag`, `C140_old_forms`, `C140_genres`, `C140_odd_date`, `C140_parentheses`

Prove for whole tags; the place of the date may change.

*Note:* C140_old_forms excludes ID3v2.3 frames named TDAT and TIME.

### C141 — An ID3v2.3 tag loses nothing else

*Status:* partial. *Theorems:* `C141_date_removed`, `C141_early_year_refuted`, `C141_parenthesis_refuted`, `C141_people_refuted`, `C141_musicians_refuted`

Expected to fail; refute by example, and prove that a full date in an ID3v2.3 tag is always removed.

*Note:* Refuted: a year below 1000 is written so that a strict reader refuses the file and others lose the date; a full date in an ID3v2.3 tag is removed while reading (for every list of frames); a genre that ends in a parenthesis breaks the list; the last pair of people is dropped if its value is empty; musicians become involved people.

### C142 — An ID3v2 tag has no two frames with the same identity

*Status:* proved. *Theorems:* `C142_read`, `C142_insert`, `C142_kept`, `C142_single`, `C142_several`, `C142_says`, `C142_empty`

Prove by induction over reading.

### C143 — Reading an ID3v2 tag ends without a panic

*Status:* partial. *Theorems:* `C143_total`, `C143_position`, `C143_depth`, `C143_compressed_refuted`

Prove for contents that do not grow when decompressed; the depth of chapters in chapters is expected to be unbounded.

*Note:* C143_total: no panic for any content that does not grow when decompressed. The recursion is not bounded: chapters in chapters need 27 bytes each (C143_depth), and a compressed chapter whose decompressed content holds the same chapter is never finished (C143_compressed_refuted; whether such a stream exists is a question about the zlib format, which is not modelled).

### C144 — Flags of an ID3v2 tag

*Status:* partial. *Theorems:* `C144_extended_refuted`, `C144_unsync_refuted`

Expected to fail; refute.

*Note:* Refuted: every ID3v2.4 tag with a checksum or restrictions is read back without frames, because the flag for the extended header is not written; the flag for unsynchronisation is written without unsynchronising. C139 and C140 hold for the other flags.

### C145 — Flags of an ID3v2 frame

*Status:* partial. *Theorems:* `C145_unsync_refuted`, `C145_length_refuted`, `C145_compression_refuted`, `C145_encrypted_refuted`

Expected to fail; refute.

*Note:* Refuted for each of these flags. C138 and C139 hold for the other flags.

### C146 — A damaged ID3v2 frame does not affect the others

*Status:* partial. *Theorems:* `C146_bad_name`, `C146_timestamp`, `C146_damaged_refuted`

Prove for bad names, refute for contents.

*Note:* Frames with bad names are skipped. Refuted for contents: an unknown text encoding makes the whole tag unreadable in every mode.

### C147 — Frames follow one another by their sizes

*Status:* partial. *Theorems:* `C147_place`, `C147_link_refuted`, `C147_next_frame_refuted`, `C147_comment_refuted`

Prove for all kinds of frames except links and UTF-16 comments and lyrics; refute for those.

*Note:* Proved for all kinds except links, and comments and lyrics in UTF-16. Refuted for those: what is behind the end of the text is taken for the next frame.

### C148 — Saving an ID3v2 tag replaces the old one and keeps the audio

*Status:* proved. *Theorems:* `C148_replaced`, `C148_added`, `C148_again`

Prove.

### C149 — Saving an ID3v2 tag never loses audio

*Status:* partial. *Theorems:* `C149_crash_refuted`, `C149_letters_refuted`, `C149_extended_refuted`, `C149_window_refuted`

Expected to fail; refute.

*Note:* Refuted: after a crash the file may be empty; the letters ID3 in the audio (with no tag) lose what is before them; an old tag with an extended header loses as many bytes of audio; with fewer than 3 junk bytes allowed the old tag is kept behind the new one.

### C150 — An ID3v2 tag that was read can be saved

*Status:* partial. *Theorems:* `C150_unwritable_refuted`, `C150_read_refuted`, `C150_language_refuted`

Expected to fail; refute, and prove that tags with ownership frames or event timing codes can never be saved.

*Note:* Refuted for ownership frames and event timing codes (always), and for comments in a language that is not three letters.

### C151 — Old and foreign forms of MP4 items are understood

*Status:* partial. *Theorems:* `C151_flag`, `C151_genre`, `C151_genre_high_refuted`, `C151_name_overrun`

One item in a list, by the lemmas of C114; genre numbers above 255 expected to fail.

*Note:* Only the low byte of a genre number is looked at: 257 is read as 1.

### C152 — The tags of several udta atoms are read as one

*Status:* proved. *Theorems:* `C152_merged`

Generalise the lemma for one udta atom to any tag read so far.

### C153 — Setting a text of an ID3v2 tag sets that text only

*Status:* partial. *Theorems:* `C153_set_text`, `C153_remove`, `C153_values`, `C153_hidden_refuted`, `C153_order_refuted`

By the lemmas on frame lists.

*Note:* Proved when the tag has no frame of that name or one that is a text frame. A frame of another kind with that name, as an encrypted one, stays first and hides the text. Removing keeps the other frames but not their order.

### C154 — Track and disk numbers of an ID3v2 tag are independent of their totals

*Status:* partial. *Theorems:* `C154_set_number`, `C154_set_total`, `C154_remove_total`, `C154_total_only_refuted`, `C154_invented_refuted`, `C154_total_removed_refuted`

Decimal numbers parse back; expected to fail for tags with one of the two.

*Note:* Setting a total without a number sets the number to 0; removing the number removes the total; "/10" is read as number 10.

### C155 — The date that is set in an ID3v2 tag is the date it has

*Status:* partial. *Theorems:* `C155_set_refuted`, `C155_old_refuted`, `C155_get`, `C155_remove`, `C155_saved`, `C155_v23_refuted`

set_date makes a text frame and date looks for a timestamp frame: expected to fail.

*Note:* set_date makes a text frame, which date does not see: after set_date there is no date, or still the old one; and in a 2.3 tag the date is not saved.

### C156 — The comment of an ID3v2 tag is the comment without a description

*Status:* proved. *Theorems:* `C156_set`, `C156_language`, `C156_remove`

Induction over the frames.

### C157 — The genre that is set in an ID3v2 tag is the genre it has

*Status:* partial. *Theorems:* `C157_set`, `C157_number_refuted`

Expected to fail for numbers.

*Note:* Proved for texts of more than three bytes without NUL that do not begin with a parenthesis; false for numbers, RX, CR and the empty text.

### C158 — Converting an ID3v2 tag to a Tag and back loses nothing

*Status:* partial. *Theorems:* `C158_frames`, `C158_saved`, `C158_numbers`, `C158_movement_refuted`, `C158_head_refuted`, `C158_number_refuted`, `C158_description_refuted`, `C158_encoding_refuted`

Each frame gives items that give it again; induction over the list with the state of the conversion.

*Note:* The version and the flags are lost when no frame is kept aside; numbers like A1 and the numbers of movements are lost; a second value of a comment loses the description; encodings and frame flags are not kept. The second part excludes URL frames, see C161.

### C159 — The items of a Tag survive ID3v2

*Status:* partial. *Theorems:* `C159_items`, `C159_lost_refuted`, `C159_shared_refuted`, `C159_total_refuted`, `C159_later_refuted`, `C159_gain_refuted`

From the lemmas of C158; a relation between groups of items and frames as the specification.

*Note:* Six keys are accepted and dropped; three come back as other keys; a total without a number gets the number 0; later values of keys with one value are dropped.

### C160 — A Tag for ID3v2 accepts the keys that ID3v2 can store

*Status:* partial. *Theorems:* `C160_exact`, `C160_refused_refuted`, `C160_accepted_refuted`

Computation over all keys.

*Note:* Exactly the six keys in LOST are accepted and give no frame, and exactly the six in HIDDEN give a frame and are refused.

### C161 — Saving a Tag as ID3v2 writes what converting it gives

*Status:* partial. *Theorems:* `C161_same`, `C161_tag`, `C161_locator_refuted`, `C161_people_refuted`

Compare the two conversions; expected to fail for URLs.

*Note:* Proved without locators, equal pictures and people both in the items and kept aside. URLs are lost when a Tag is saved; two TIPL frames are written.

### C162 — A Tag can be saved as ID3v2

*Status:* partial. *Theorems:* `C162_verified`, `C162_unsaved_refuted`

Invariant of the state of the conversion; expected to fail for WORK.

*Note:* False for the keys Work and FlagPodcast: with one of them the whole tag cannot be saved.

### C163 — ID3v2.2 tags are read as the frames they stand for

*Status:* partial. *Theorems:* `C163_tag`, `C163_unsync23`, `C163_artist_refuted`, `C163_writer_refuted`

The contents of ID3v2.3 except for the verified encodings; a table of names from the standard. Expected to fail for TOA and TXT.

*Note:* Proved for all names but two: TOA (original artist) is read as TOAL (original album), TXT (text writer) as TOLY (original text writer).

### C164 — An MPEG frame header is decoded as the standard says

*Status:* proved. *Theorems:* `C164_decode`, `C164_only`

An encoder of the fields as specification; the decoder is its inverse, and every accepted word is in its image.

### C165 — The length of an MPEG frame is that of the standard

*Status:* partial. *Theorems:* `C165_length_partial`, `C165_length_refuted`

Cases over the tables; expected to fail for Layer I, where the length is a number of slots of four bytes.

*Note:* Proved but for Layer I at 44.1, 22.05 and 11.025 kHz, where it is false: the code does not round to slots of four bytes.

### C166 — The search for a frame sync finds the first one

*Status:* proved. *Theorems:* `C166_first_sync`

Induction over the bytes.

### C167 — The first frame of an MPEG stream is found

*Status:* partial. *Theorems:* `C167_found_partial`, `C167_file_partial`, `C167_byte_before_refuted`, `C167_single_refuted`, `C167_end_refuted`

Follow the reader over the parts of the file. Junk that ends in 0xFF and streams of one frame are expected to fail.

*Note:* Proved for two frames or more. A byte 0xFF before the first frame hides it; a single frame is not found; something like a sync in the last three bytes of the file is an error. Missing: ID3v2 tags with an extended header. For an APE tag before the audio see C171.

### C168 — The duration of an MPEG file with a VBR header is that of the frames counted in it

*Status:* partial. *Theorems:* `C168_xing`, `C168_vbri_partial`, `C168_vbri_refuted`

From C167 and the layout of the headers; VBRI is expected to fail where it is not at the place of the Xing header.

*Note:* Proved for Xing and Info. VBRI is always 32 bytes after the frame header, but it is looked for where the Xing header would be, so it is found in MPEG 1 stereo only.

### C169 — The duration of an MPEG file without a VBR header is that of its frames

*Status:* partial. *Theorems:* `C169_cbr`, `C169_accuracy`, `C169_vbr_refuted`, `C169_short_refuted`

The search backwards finds the last header before the end; a frame never ends so that its header lies across two windows.

*Note:* Two short frames are an error. Without a VBR header the bit rate of the first frame is taken for all.

### C170 — Reading an MPEG file ends and does not panic

*Status:* proved. *Theorems:* `C170_total`

A measure for every loop; bounds for every product.

*Note:* Running out of fuel is a panic in the model, so this is also termination.

### C171 — All tags of an MPEG file are read

*Status:* partial. *Theorems:* `C171_tags_partial`, `C171_with_props_partial`, `C171_leading_ape`, `C171_footer_refuted`

Follow the reader over the parts of the file; expected to fail for the footer of a second tag.

*Note:* Proved if only the first ID3v2 tag has a footer: that of a later one is not skipped, and tags behind it are not seen. Missing: extended headers.

### C172 — The properties of an MPEG file do not depend on whether its tags are read

*Status:* partial. *Theorems:* `C172_independent_partial`, `C172_ape_refuted`, `C172_leading_refuted`

Compare the two runs; expected to fail with an APE tag.

*Note:* Proved without an APE tag. With an APE tag that is not read the end of the audio is wrong by the size of the tag, or its start by 32 bytes if the tag is before the audio.

### C173 — The general properties of an MPEG file are its own

*Status:* proved. *Theorems:* `C173_file_properties`, `C173_channels`

Cases; the mode of the first frame is followed through the reader.

### C174 — The checksum of an ID3v2.4 tag is the CRC-32 of its frames and padding

*Status:* partial. *Theorems:* `C174_checksum`, `C174_padding_refuted`, `C174_restrictions_refuted`, `C174_panic_refuted`

The table form against the bit-serial definition by linearity; the place of the bytes in create_tag. Expected to fail with padding and restrictions.

*Note:* Proved without padding and restrictions. Padding is not covered; with restrictions the first byte of the frames is not covered, and a tag none of whose frames can be written panics.

### C175 — Volume adjustments are read back whatever their peak

*Status:* partial. *Theorems:* `C175_channels_partial`, `C175_bits`, `C175_ones`, `C175_peak_refuted`, `C175_panic_refuted`

Round trip for peaks of the stated size; the bit count of longer ones is worked out from leading ones, which is expected to fail.

*Note:* Proved when the bit count fits the peak. The bit count of a longer peak is replaced by the number of leading ones of its bytes: unreadable in general, an overflow for 32 bytes of 255.

### C176 — An ADTS header is read as the standard defines it

*Status:* partial. *Theorems:* `C176_decode_partial`, `C176_index`, `C176_copyright_refuted`, `C176_channels_refuted`, `C176_layer_refuted`

The 56 bits as a sum of shifted fields against the masks of the code. Expected to fail for the copyright bit, eight channels, four channels and the layer.

*Note:* Proved for all fields but the copyright bit (the home bit is reported), configuration 7 (8 channels are reported as 7) and the speakers of configuration 4. Headers of MPEG layers I to III are taken as ADTS.

### C177 — The audio of an AAC file is found after zeros, ID3v2 tags and junk

*Status:* partial. *Theorems:* `C177_found_partial`, `C177_single_refuted`, `C177_junk_refuted`, `C177_end_refuted`, `C177_small_refuted`

The whole reader on such files. Expected to fail for one frame, junk that looks like a header, a sync in the last bytes and small frames.

*Note:* Proved for at least two frames, junk and end without a sync, and a first frame whose bit rate is above 0. Refuted for one frame, for junk with the reserved sample rate index, for a sync in the last six bytes and for frames whose bit rate is below 1.

### C178 — The duration of an AAC file is that of its frames

*Status:* partial. *Theorems:* `C178_formula_partial`, `C178_long_refuted`, `C178_bitrate`

The formula of the code, then its relation to the true duration. Expected to fail: kilobits of 1024 bits.

*Note:* The formula of the code is proved: the mean of the bit rates of all frames but the last, in units of 1024 bits, and a stream that includes ten bytes per tag. With frames of one size the duration is proved to be at least 1.024 times too long, for every such file.

### C179 — Reading an AAC file ends and does not panic

*Status:* partial. *Theorems:* `C179_total_partial`, `C179_stuck_refuted`

Each round of the loops goes forward. Expected to fail for frames of length 0.

*Note:* Proved for files without a header of an empty frame; a file with two of them in a row is read forever.

### C180 — The tags of an AAC file are those in it, and do not change its properties

*Status:* partial. *Theorems:* `C180_tags_partial`, `C180_independent_partial`, `C180_title_refuted`, `C180_frames_refuted`, `C180_footer_refuted`

Induction on the tags; with tags off the content is not skipped, expected to fail.

*Note:* Proved for tags of which only the first has a footer, and, when tags are not read, for files that do not begin with an ID3v2 tag. The content of a tag is not skipped when tags are not read: a UTF-16 title makes the file unreadable, and frames in a tag are taken for the audio. A tag after a second tag with a footer is lost.

### C181 — A WavPack file is described by its first block with audio

*Status:* partial. *Theorems:* `C181_properties`, `C181_multichannel_refuted`

The flag word as a sum of fields, induction on the blocks before. Expected to fail for several blocks at a usual sample rate: the channels stay 0.

*Note:* Proved for audio in one block. For audio in several blocks the channels and speakers are proved to be 0 whenever the file is read.

### C182 — Sample rates outside the table and channel layouts come from the sub-blocks

*Status:* partial. *Theorems:* `C182_rate`, `C182_channels_refuted`

Induction on the sub-blocks. Expected to fail for the channel sub-block: its first byte is not taken from its size, so that the next one is read from its second byte.

*Note:* Sample rates of three bytes and DSD are proved. A channel sub-block at the end of a block makes reading fail, or in the other modes leaves all properties empty; before another sub-block it makes that one misread (C182_example_shifted). Of a sample rate of four bytes the last is ignored (C182_example_four).

### C183 — The duration and bit rates of a WavPack file are the nearest whole numbers

*Status:* partial. *Theorems:* `C183_duration`, `C183_unknown`, `C183_long_refuted`

Error bounds of the f64 operations. Expected to fail for the number of samples of 40 bits.

*Note:* Proved for fewer than 2^32 - 1 samples; the bit rates are within 1/2 + 2^-17 of the exact value. Beyond, the upper byte of the number is ignored.

### C184 — Reading a WavPack file does not panic

*Status:* partial. *Theorems:* `C184_total`, `C184_ape_size_refuted`

Each round of the loops goes forward; the subtraction of the size of the APE tag is the one place that can fail.

*Note:* Proved for files without ID3v1 tag, without APE tag before it, or with one whose size fits. Otherwise the subtraction of the size of the APE tag can overflow.

### C185 — The tags of a WavPack file are those at its end

*Status:* proved. *Theorems:* `C185_tags`

The round trip of APE tags at the end of any content.

*Note:* For files of at least 32 bytes before the ID3v1 tag.

### C186 — A Musepack stream of version 8 is described by its packets

*Status:* proved. *Theorems:* `C186_properties`, `C186_required`, `C186_no_header`, `C186_no_gain`

Induction on the packets and on the bytes of the sizes.

*Note:* For fewer than 2^54 samples, more samples than silence, packets of less than 2^45 bytes and bit rates below 2^32 kbit/s.

### C187 — A Musepack stream of version 7 is described by its header

*Status:* partial. *Theorems:* `C187_fields`, `C187_gain`, `C187_negative_gain_refuted`, `C187_encoder_refuted`, `C187_duration_refuted`

The words as sums of fields; error bounds of the f64 and f32 operations. Expected to fail for negative gains, the version of the encoder and the samples that are not heard.

*Note:* The fields and the bit rate are proved. The gain is within 1/2 of (64.82 dB - gain) * 256 for gains from 0.01 to 64.81 dB; a negative gain gives 0. The encoder's version is taken from the last byte of its word, not the first. The duration is that of all frames, with samples that are not heard: 9 ms too much without the gapless flag. Peaks go through a logarithm that is a parameter of the model.

### C188 — A Musepack stream of version 4 to 6 is described by its header

*Status:* partial. *Theorems:* `C188_properties`, `C188_bitrate_refuted`

The words as sums of fields; the first bytes differ from all magic numbers; error bounds of the f64 operations. Expected to fail for the bit rate, which is divided by the length of a frame.

*Note:* All but the bit rate is proved. The bit rate reported is at most 7/8 of the true one (for 20 frames and more), as it is divided by 1152 in place of 1000.

### C189 — Reading a Musepack file does not panic

*Status:* partial. *Theorems:* `C189_total_partial`, `C189_lone_frame_refuted`, `C189_sv8_refuted`

Bounds of all u64 operations. Expected to fail for huge numbers of samples and packet sizes, and for one frame of no samples.

*Note:* Proved for files of less than 2^45 bytes in which no MPCK is followed by packets with 2^54 samples or 2^45 bytes, nor MP+ by a header of one gapless frame without samples. These make reading panic.

### C190 — The tags of a Musepack file are those before and behind the stream

*Status:* partial. *Theorems:* `C190_tags`, `C190_untagged_refuted`, `C190_version_refuted`, `C190_bitrate_refuted`, `C190_short_refuted`

The round trip of tags around any content. Expected to fail for the version, and for files whose tags are not read.

*Note:* The tags are proved. The version is always said to be 8. Without reading tags, an APE tag longer than all before it by more than 32 bytes is an error, and the ID3v2 tag counts for the bit rate. Streams of less than 32 bytes before an ID3v1 tag are an error.

### C191 — The duration of an MP4 file is that of its first audio track

*Status:* proved. *Theorems:* `C191_duration`, `C191_readable`

Induction on tracks and atoms with a reader that knows its position.

*Note:* For durations below 2^54 units; files with properties of the tag that can be read.

### C192 — MPEG-4 audio is described by its decoder configuration

*Status:* partial. *Theorems:* `C192_mp4a`, `C192_extended_partial`, `C192_seven_refuted`, `C192_usac_refuted`, `C192_extended_refuted`, `C192_rate_refuted`, `C192_als`, `C192_als_refuted`

The bits of the configuration as a number. Expected to fail for extended types, rates written out and eight channels.

*Note:* Proved for object types below 31, indexed rates and up to six channels, and for types 32 to 39 but 36 all except the channels. Eight channels (configuration 7) are reported as 7; type 42 as 35; with an extended type two channels as 64; a rate that is written out is wrong. For lossless audio (type 36) rate and channels are those of its own configuration, up to 255 channels; 256 lead to a panic, of more the lower eight bits are reported.

### C193 — ALAC and FLAC in MP4 are described by their own headers

*Status:* partial. *Theorems:* `C193_alac`, `C193_flac`, `C193_alac_refuted`

Reading at known positions. Expected to fail for ALAC sample entries with further atoms.

*Note:* FLAC is proved with any atoms behind. ALAC is only recognised if its atom is the only one in the only sample entry.

### C194 — Other sample entries give the numbers of the entry; protected ones are marked

*Status:* partial. *Theorems:* `C194_other`, `C194_undescribed`, `C194_second_refuted`

Reading at known positions. Expected to fail for entries behind, whose position is not computed from the size of the first.

*Note:* Proved for the only entry. An entry behind it is read from the wrong place.

### C195 — The bit rates of an MP4 file are sizes over durations

*Status:* proved. *Theorems:* `C195_overall`, `C195_audio`, `C195_average`, `C195_no_data`

Arithmetic on what C191 reads.

*Note:* For rates below 2^32 and durations of at least a millisecond; the average for object types below 31.

### C196 — Reading an MP4 file ends, without a panic

*Status:* partial. *Theorems:* `C196_terminates`, `C196_bounds`, `C196_endless_refuted`, `C196_wide_refuted`

Every step of every loop moves the reader by eight bytes or leaves nothing to read. Expected to fail at 4 GiB, and for several overflows.

*Note:* All loops end for data of less than 2^32 - 8 bytes. An atom of size 0 with 2^32 bytes behind its header makes the search for moov go on forever. A media duration of 2^62 panics; so do a FLAC configuration of less than four bytes, an ALS stream of 256 channels and a freeform item with a 64-bit size that ends before its name (examples).

### C197 — The order of the atoms in a media does not change the properties

*Status:* partial. *Theorems:* `C197_order_partial`, `C197_order_refuted`

The result of C191 as a function of content. Expected to fail when the media information comes before the handler.

*Note:* Proved for orders with the media information last. If it comes before the handler, there is no audio track.

### C198 — A file is recognised by how its format begins

*Status:* partial. *Theorems:* `C198_magic`, `C198_sound`, `C198_long_head_refuted`

The tests of the code are mutually exclusive on the beginnings. Expected to fail for Ogg headers of more than one segment.

*Note:* Proved for every beginning; Ogg headers have to fit into one segment. An Opus header of 255 bytes or more (234 channels or more) is not recognised, or taken for AAC. MP4 sizes and Musepack 7 frame counts below 2^30.

### C199 — A file is recognised behind an ID3v2 tag

*Status:* partial. *Theorems:* `C199_behind_tag`, `C199_footer_refuted`

The seven-bit size is decoded; the bytes behind are compared. Expected to fail for tags with a footer.

*Note:* Proved for tags without a footer and of revision 0. The footer is not skipped: a FLAC file behind a tag with one is not recognised.

### C200 — Behind other bytes the first frame sync decides

*Status:* proved. *Theorems:* `C200_junk`

The search finds the first sync of the window (C166).

*Note:* The bytes are marked by no format and do not begin with ID3.

### C201 — Guessing does not move the reader and depends only on what follows

*Status:* proved. *Theorems:* `C201_position`, `C201_local`

Case analysis; every path seeks back.

### C202 — What a reader accepts is recognised

*Status:* partial. *Theorems:* `C202_wav`, `C202_aiff`, `C202_flac`, `C202_mp4_partial`, `C202_mpeg_refuted`, `C202_flac_refuted`

What the readers check implies the mark. Expected to fail for leading zeros and footers.

*Note:* Proved for WAV, AIFF, FLAC without a leading ID3v2 tag and MP4 with a first size below 2^30. MPEG files with 1023 zeros in front and FLAC files behind a tag with a footer are accepted by the readers and not recognised.

### C203 — File names are recognised by their extension

*Status:* partial. *Theorems:* `C203_extensions`, `C203_case`, `C203_custom`, `C203_path`, `C203_no_extension`, `C203_list`, `C203_list_refuted`, `C203_custom_case_refuted`

Table lookup; splitting paths. Expected to fail for the list and for resolvers with capital letters.

*Note:* The extension wave is recognised but not in the published list. A resolver whose extension has a capital letter is never chosen.

### C204 — The supported tags are those documented; the primary tag can be written

*Status:* proved. *Theorems:* `C204_support`, `C204_primary`, `C204_custom`, `C204_register`

Case analysis.

### C205 — The limit for junk bytes applies to the recognition of files

*Status:* partial. *Theorems:* `C205_probe`, `C205_tagged_ignores`, `C205_tagged_refuted`, `C205_below_refuted`

Unfolding. Expected to fail for tagged files, which are guessed before the options are set.

*Note:* Proved for probes. TaggedFile::read_from guesses before it sets the options, so the limit is always 1024.

### C206 — A tagged file holds at most one tag of each type that its format can read

*Status:* partial. *Theorems:* `C206_insert`, `C206_remove`, `C206_change_type`, `C206_change`, `C206_clear`, `C206_histories`, `C206_remap_refuted`

Induction on the list and on the history. Expected to fail if the type of a tag is changed in place (Tag::re_map through tag_mut).

*Note:* Proved for changes in place that keep the type of the tag. With Tag::re_map through tag_mut there are two tags of one type, and an inserted tag is not the one that is found.

### C207 — Saving a tagged file writes its writable tags in order, and only those

*Status:* partial. *Theorems:* `C207_saved`, `C207_total`, `C207_cleared`, `C207_atomic_refuted`

Induction on the tags. Expected to fail for all or nothing.

*Note:* It is not all or nothing: the type of the file is found again for every tag, and an error leaves the tags before it written. That the writers keep the type of the file is a premise.

### C208 — A tag is only written to files of formats that support it

*Status:* partial. *Theorems:* `C208_supported`, `C208_unsupported`, `C208_unknown`, `C208_empty`, `C208_mp4_refuted`, `C208_ogg_refuted`, `C208_flac_refuted`, `C208_custom_refuted`

Case analysis over formats and types. Expected to fail for empty tags.

*Note:* Proved for tags with items or pictures in all built-in formats. An empty tag of a type that the format does not support is written as an empty tag of the format to MP4 and Ogg files, panics for FLAC; a file of a custom type always panics.

### C209 — A tag can be removed from a file if its type can be read

*Status:* partial. *Theorems:* `C209_readable`, `C209_unsupported`, `C209_path_refuted`, `C209_path_error_refuted`, `C209_path_name_refuted`

Case analysis. Expected to fail by path: the file is opened for reading only and its content is not looked at.

*Note:* Proved for open files. By path nothing is ever removed: the file is opened for reading only.

### C210 — A file that was read can be saved again

*Status:* partial. *Theorems:* `C210_fields`, `C210_saved`, `C210_flac`, `C210_tagged`, `C210_order`, `C210_readonly_refuted`, `C210_flac_readonly_refuted`, `C210_flac_other_refuted`

Induction on the fields. Expected to fail for tags that the format only reads.

*Note:* Proved if no tag of the file is of a read-only type. With one (an ID3v2 tag in FLAC, APE and Musepack files, an ID3v1 tag in Musepack files) saving always fails, behind the tags in front of it. FlacFile saved to a file of another format panics or writes to an Ogg file.

### C211 — Saving a bound file keeps in memory what is in the file

*Status:* partial. *Theorems:* `C211_bound`, `C211_companion_refuted`

Unfolding. Expected to fail for tags that only have format-specific items.

*Note:* A tag that only has format-specific items is written but dropped from memory.

### C212 — RIFF INFO lists become generic tags and back without loss

*Status:* partial. *Theorems:* `C212_shown`, `C212_roundtrip`, `C212_back`, `C212_unknown_refuted`, `C212_alias_refuted`

Induction on the list. Expected to fail for keys that are not in the table or have two names.

*Note:* Proved for keys in the table. Items under other keys are lost, because the remainder of the split holds nothing, and ITRK comes back as IPRT.

### C213 — A generic tag is written as an INFO list like its conversion is

*Status:* partial. *Theorems:* `C213_same`, `C213_rating`, `C213_rating_refuted`, `C213_lost_refuted`

Induction on the items. Expected to fail for ratings.

*Note:* Proved for tags without ratings. A converted tag has the text of the rating and not the number, and the number is not read as a rating again.

### C214 — AIFF text chunks become generic tags and back without loss

*Status:* partial. *Theorems:* `C214_roundtrip`, `C214_of_tag`, `C214_writer`, `C214_order_refuted`, `C214_comments_refuted`, `C214_link_refuted`

Lemmas about take_strings. Expected to fail for time stamps of comments and for the order.

*Note:* Proved but for the order: comments change their order if another item stands behind them, and with several artists or copyright messages some one is taken. Comments with time stamps become annotations. A title that is a link is converted but not written.

### C215 — The accessors of RIFF INFO lists behave like fields

*Status:* partial. *Theorems:* `C215_text`, `C215_number`, `C215_date`, `C215_case_refuted`, `C215_track_refuted`

From the laws of insert and remove. Expected to fail for lists of files with keys in lower case.

*Note:* Proved for lists without two keys that differ in case only. A list from a file with the key inam has no title by the accessor, though it contains it and its tag shows it; a number under ITRK is seen in the tag only.

### C216 — The accessors and counts of AIFF text chunks agree with their content

*Status:* partial. *Theorems:* `C216_comment`, `C216_counts`, `C216_remove_refuted`, `C216_empty_list_refuted`

Case analysis. Expected to fail for comments with time stamps and empty lists.

*Note:* Proved for chunks without empty lists. Removing the comment leaves those with time stamps, of which the first is then read.

### C217 — A generic tag saved to a WAV or AIFF file is read back

*Status:* proved. *Theorems:* `C217_wav`, `C217_aiff`

C105 and C108 together with the conversions.

*Note:* The WAV part is for tags without ratings (see C213).

### C218 — A SYLT frame is read as its layout says, and every byte of it is accounted for

*Status:* proved. *Theorems:* `C218_layout`, `C218_accepted`, `C218_total`

Induction over the texts for the loop.

### C219 — A SYLT frame that is written reads back

*Status:* partial. *Theorems:* `C219_roundtrip`, `C219_v23_utf8_refuted`, `C219_v23_utf16be_refuted`

What is written is a layout of C218. Expected to fail for ID3v2.3, where the encoding byte is not the one that is used.

*Note:* Proved for ID3v2.4, and for ISO-8859-1 and UTF-16 in ID3v2.3. There, frames with UTF-8 and UTF-16BE are written in UTF-16 but with their own encoding byte: with UTF-8 none of them can be read back, with UTF-16BE the bytes of the characters are swapped.

### C220 — A GEOB frame that is written reads back

*Status:* partial. *Theorems:* `C220_roundtrip`, `C220_total`, `C220_mime_refuted`

Round trips of the texts. Expected to fail for MIME types that are not ASCII.

*Note:* Proved for MIME types in ASCII. Others are written as UTF-8 and read as ISO-8859-1.

### C221 — An ATXT frame that is written reads back

*Status:* partial. *Theorems:* `C221_roundtrip`, `C221_total`, `C221_eq_refuted`

Round trips of the texts. Expected to fail for equality.

*Note:* Round trip and totality proved. Frames with the same text are equal whatever their clips.

### C222 — Scrambling a clip twice gives it back

*Status:* proved. *Theorems:* `C222_table`, `C222_scramble`

Computation of the table, periodicity and induction over the clip.

### C223 — The properties of an APE file are those of its header

*Status:* proved. *Theorems:* `C223_descriptor`

The reading of each field is followed; the tags as in C69 and C181.

*Note:* Bit depths below 256; a larger one loses its upper byte.

### C224 — The properties of an APE file of an older version are those of its header

*Status:* proved. *Theorems:* `C224_old_header`

As C223; the flags by their bits.

### C225 — The duration of an APE file is that of its blocks

*Status:* partial. *Theorems:* `C225_duration_partial`, `C225_no_rate`, `C225_last_block_refuted`

Bounds of the rounding errors of f64 arithmetic. Expected to fail for a last frame of one block.

*Note:* Proved when the last frame has two blocks or more. With one block, all the other frames are left out.

### C226 — The bit rates of an APE file are those of its audio and of the file

*Status:* partial. *Theorems:* `C226_bit_rate`, `C226_overall_partial`, `C226_overall_refuted`, `C226_empty_refuted`, `C226_covered_refuted`

As C225. Expected to fail for the overall bit rate, which counts up to the position of the reader.

*Note:* Proved for the audio bit rate, and for the overall bit rate of files that end with an APE tag that is read. Otherwise an ID3v1 tag does not count, without an APE tag 24 bytes of the audio neither. A file of one empty frame has the bit rate 2^32-1. The bytes that an APE tag claims for itself do not count, even if they are the audio.

### C227 — APE headers that cannot be are refused in strict mode only

*Status:* partial. *Theorems:* `C227_strict_partial`, `C227_tolerant`, `C227_channels_refuted`

Case analysis. Expected to fail for 257 channels.

*Note:* Proved below 256 channels. The upper byte of the number of channels is ignored: 257 channels are taken for mono in strict mode.

### C228 — Reading the properties of an APE file is total and reads a whole header

*Status:* proved. *Theorems:* `C228_total`, `C228_complete`, `C228_not_asked`

Case analysis.

### C229 — Saving keeps the type of the file

*Status:* partial. *Theorems:* `C229_trailing`, `C229_id3v1`, `C229_ape`, `C229_wav_info`, `C229_aiff_text`, `C229_id3_chunk`, `C229_mp4`, `C229_ogg`, `C229_id3v2_replaced`, `C229_id3v2_added`, `C229_id3v2_removed`, `C229_flac`, `C229_short_size_refuted`, `C229_whole_file_refuted`, `C229_footer_refuted`, `C229_hidden_refuted`

Each writer leaves the mark of its format where it was: no change starts before the end of the mark, or what is written anew begins with it. Tags at the end: a type that is recognised stays when something is appended. Expected to fail for the files of C69 and C199.

*Note:* Proved per writer: ID3v1 (also after a crash) and APE tags behind 36 bytes or more of audio; RIFF INFO; AIFF text; ID3v2 chunks when the size in the header is 4 or more; MP4 below 2^32 bytes; Ogg with a first packet of less than 255 bytes; FLAC, also behind an ID3v2 tag; ID3v2 tags without a footer in front of MPEG and AAC. Not proved: WavPack and Musepack beyond what holds for all tags at the end. It fails for a WAV file whose declared size is below 4 (the chunk is put in front of WAVE), for an APE tag without a header (its file can become empty), for a new ID3v2 tag with a footer (it counts as junk) and when the removal of a tag uncovers the mark of another format.

### C230 — Vectors are filled inside of their memory

*Status:* partial. *Theorems:* `C230_from_element`, `C230_limit_first`, `C230_repeat`, `C230_capacity`, `C230_longer_refuted`

Memory cells up to the capacity, written or not; the loop writes cell after cell. Expected to fail for a vector that is longer than the size.

*Note:* Proved for all that the crate calls. fallible_repeat on a vector longer than the size would write outside of its memory; the trait is private and used on new vectors.

### C231 — The options of a thread are its own

*Status:* proved. *Theorems:* `C231_thread`, `C231_others`, `C231_setters`

Induction over the sequence of events.

### C232 — The limit for allocations only refuses what is larger

*Status:* partial. *Theorems:* `C232_comments_same`, `C232_comments_enough`, `C232_comments_exact`, `C232_comments_monotone`, `C232_comments_within`, `C232_list_refuted`, `C232_ape_same`, `C232_ape_enough`, `C232_ape_monotone`, `C232_ape_within`

Induction over the fields; the picture in a comment is smaller than the comment. Expected to fail for the list of comments, whose capacity is not limited.

*Note:* The memory for the list of comments (48 bytes for each) is not limited. The size of what comes out is proved without implicit conversions.

### C233 — Frames are written up to the limit for allocations

*Status:* partial. *Theorems:* `C233_same`, `C233_unlimited`, `C233_etco`, `C233_priv_bound`, `C233_popm_bound`, `C233_priv_refuted`, `C233_latin_refuted`, `C233_popm_refuted`, `C233_ctoc_refuted`, `C233_chap_refuted`, `C233_identifier`

The capacity that is asked for against the length of the result. Expected to fail except for ETCO.

*Note:* As documented for ETCO. PRIV may be one byte over the limit, and is refused though it fits when the owner is not ASCII; POPM asks for nine bytes whatever the counter is; CHAP and CTOC count only the identifier.

### C234 — Extensible and compressed WAV files are described by their format chunk

*Status:* partial. *Theorems:* `C234_extensible`, `C234_compressed`, `C234_file`, `C234_no_fact`, `C234_no_rate`, `C234_adpcm_refuted`, `C234_depth_refuted`

The format chunk is built from its fields, and the properties follow from the fields. Expected to fail for formats with fewer than eight bits for a sample.

*Note:* Files with four bits for a sample (ADPCM) are refused, as the bytes for a sample are rounded down to 0. The depth is one byte, samples of 32 bytes have depth 0.

### C235 — The generic properties of a file are those of its format

*Status:* partial. *Theorems:* `C235_fields`, `C235_channels_refuted`, `C235_opus_speakers`, `C235_aac_speakers_partial`, `C235_aac_speakers_refuted`, `C235_wav_speakers_refuted`, `C235_opus_rate_refuted`, `C235_empty`, `C235_unread`, `C235_unread_refuted`

One case for each format against getters written down independently. Expected to fail for more than 255 channels, and for the default of MPEG.

*Note:* Of more than 255 channels the lower eight bits are reported. AAC with channel configuration 7 has 7 channels and 8 speakers, the mask of a WAV file is not compared with its channels. The sample rate of Opus is that of the input and may be 0. An MPEG file whose properties are not read has the mask of stereo.

### C236 — User defined texts of an ID3v2 tag are a map by description

*Status:* partial. *Theorems:* `C236_read`, `C236_get`, `C236_remove`, `C236_insert`, `C236_values`, `C236_twice_refuted`

The texts as a list of pairs, the calls as operations on it; distinct descriptions are an invariant of reading and of the calls. Expected to fail if a frame is changed in place.

*Note:* Proved for every tag that is read and every sequence of these calls. If a description is changed in place by retain_mut two texts can have the same description, and removing it leaves the second.

### C237 — Pictures of an ID3v2 tag are kept apart by type

*Status:* partial. *Theorems:* `C237_remove`, `C237_insert`, `C237_icons_refuted`, `C237_twice_refuted`

The pictures as a list; expected to fail for icons that are added as frames, and for the same picture added twice.

*Note:* insert does not look at the type of a picture: two icons that differ stay there. insert_picture does not look for the same picture.

### C238 — A generic tag saved to an OGG or FLAC file is read back

*Status:* partial. *Theorems:* `C238_items`, `C238_ogg`, `C238_flac`, `C238_empty_refuted`, `C238_number_refuted`

Compose the conversion of items with what C98 and C90 say on files; the table of names gives names that are valid, not reserved and read back to their key. Expected to fail for empty values and for numbers with leading zeros if they are converted.

*Note:* Proved for non-empty texts without trailing null; with number conversions on, for at most one track and one disc number, written as a decimal without leading zeros. Refuted: an empty text is dropped, 03 becomes 3.

### C239 — A generic tag saved to an APE, WavPack or Musepack file is read back

*Status:* partial. *Theorems:* `C239_ape`, `C239_wavpack`, `C239_musepack`, `C239_taken_refuted`, `C239_total_refuted`, `C239_several_refuted`

Compose the conversion with what C69 says on saving and with the shapes of the files in C185, C190 and C228. Expected to fail if the new tag has the letters TAG 128 bytes before its end, for several items with one key and for a total without a number.

*Note:* Proved for tags with one item of each key whose name in APE tags is not shared, texts without null characters, if the new file does not end with something that looks like an ID3v1 tag. Refuted: a tag with TAG 128 bytes before its end is not found again, since that is taken for an ID3v1 tag; a total without number comes back with number 0; of two artists only the last comes back; pictures are not written (C74).

### C240 — A generic tag saved to an MP4 file is read back

*Status:* partial. *Theorems:* `C240_replaced`, `C240_added`, `C240_picture_refuted`, `C240_nul_refuted`, `C240_number_refuted`

Compose C134 with C116 and C118; the atoms made from items must be atoms that are read as they are, which is a fact on the table of names. Expected to fail for descriptions and types of pictures, numbers that are not decimal and texts that end with NUL.

*Note:* Proved for non-empty texts not ending in NUL and pictures of the types MP4 knows without description: texts come back under the key their name reads as (UnsyncLyrics as Lyrics), flags as 0 or 1, numbers as decimals if above 0, the first valid advisory, pictures with type Other. Refuted: type and description of pictures, texts ending in NUL, numbers that are not decimals.

### C241 — A generic tag saved as ID3v2.4 to an MPEG or AAC file is read back

*Status:* partial. *Theorems:* `C241_mpeg`, `C241_aac`, `C241_date_refuted`, `C241_empty_refuted`, `C241_locator_refuted`

Compose the conversion of groups of items into frames (C158) with writing of frames (C12), replacing of the tag (C148) and reading of MPEG and AAC files. Expected to fail for dates that are no dates, empty second values and locators.

*Note:* Proved for groups of items that frames carry (texts non-empty without NUL, no locators, no release, tagging or encoding date) and pictures without NUL in the description. Refuted: a release date that is no date makes the whole file unreadable, an empty value after another is lost, locators are lost.

### C242 — A generic tag saved as ID3v1 is read back

*Status:* partial. *Theorems:* `C242_block`, `C242_mpeg`, `C242_length_refuted`, `C242_genre_refuted`, `C242_track_refuted`, `C242_strict_refuted`

Compose C15 and C17 with the conversions of C65 and, for MPEG files, with the reader of C171. Expected to fail for long texts, genres that are not in the list, large track numbers and strict reading without a year.

*Note:* Proved for Latin-1 texts: the first 30 characters (28 of the comment) up to a NUL, years up to 9999 (or the year of the recording date), track numbers from 1 to 255 and genres of the list come back. Refuted: longer texts, genres in another case or as a number, larger track numbers, strict reading without a year.

### C243 — A generic tag saved as ID3v2.4 to a WAV or AIFF file is read back

*Status:* partial. *Theorems:* `C243_wav`, `C243_aiff`, `C243_growth_refuted`, `C243_info_refuted`, `C243_size_refuted`

Compose C241's frames with the chunk writer of C106 and the readers of both file kinds. Expected to fail where C106 fails: a larger tag in place of the last chunk and a smaller one before other chunks with padding.

*Note:* Proved for the items and pictures of C241 if the file has no ID3 chunk, one before other chunks (in WAV files with padding: not 8 or more bytes larger than the new one) or one at the end that is not smaller. Refuted: saving over a smaller chunk at the end can panic, over a larger one before the RIFF INFO tag with padding loses that tag, and if the size field of the file is four bytes short the new tag loses its name.

### C244 — Dumped bytes are what saving puts into the file

*Status:* partial. *Theorems:* `C244_id3v1`, `C244_id3v2`, `C244_riff`, `C244_aiff`, `C244_ape`, `C244_chunk`, `C244_mp4`, `C244_mp4_added`, `C244_mp4_meta`, `C244_flac`, `C244_ogg`, `C244_empty_refuted`, `C244_ape_refuted`, `C244_footer_refuted`, `C244_flac_refuted`, `C244_ogg_refuted`

Both paths start from the same encoded bytes; follow these through splices and the correction of the size field, which must be before them. Expected to fail for empty ID3v1 tags, footers in chunks and APE tags near the start of the file.

*Note:* Proved for ID3v1 tags that are not empty, ID3v2 tags in MPEG and AAC files, RIFF INFO and AIFF text tags in every file, APE tags in files without an APE tag 8 bytes after the start, and ID3v2 tags without footer in the chunks of well-formed WAV and AIFF files. Refuted in the other cases. MP4 files as in C116 and C118; FLAC files that have no comments or some of the same vendor, for tags without pictures (refuted for another vendor, which is the one kept). OGG files with the same vendor: in one piece in the comment packet, which pages may divide.

### C245 — Saving a tag that can be encoded does not panic

*Status:* partial. *Theorems:* `C245_id3v1`, `C245_id3v2`, `C245_aiff`, `C245_riff`, `C245_ape`, `C245_riff_refuted`, `C245_chunk_refuted`, `C245_ape_refuted`, `C245_mp4_refuted`

AIFF: the ranges found are ascending, disjoint and inside of the file, an invariant of the chunk reader; draining them from the last keeps the earlier ones valid. APE: the tag at the end is inside of the file. Expected to fail for RIFF INFO (sizes from the file are not checked), ID3 chunks (C106), APE tags near the start (C69) and MP4 (padding below 8).

*Note:* Proved for ID3v1, ID3v2 (in front of MPEG and AAC files) and AIFF text tags in every file, for RIFF INFO if the size field of the file is from 4 to 2^32 - 9 and no INFO list claims to end after the file, and for APE tags if there is none 8 bytes after the start. Refuted otherwise: RIFF size below 4, an INFO list larger than the file, a smaller ID3 chunk at the end, an APE tag 8 bytes after the start, MP4 with a preferred padding of 1 to 7. FLAC is in C91.

### C246 — Equality, hash and order of ID3v2 frames agree

*Status:* partial. *Theorems:* `C246_hash`, `C246_equivalence`, `C246_events`, `C246_times`, `C246_sorted`, `C246_order_refuted`, `C246_uniform_refuted`

What a frame gives to the hasher as a list of calls; each part can be read off the list, so equal lists mean equal compared fields and the converse. Sorting of events is stable and chronological. Expected to fail: events and timestamp frames are ordered by time only.

*Note:* Equality is an equivalence and frames are equal exactly if they give the same to the hasher; the orders are total preorders and sorting of events is stable. Refuted: events or timestamp frames of the same time compare as Equal without being equal; flags and encodings count for some frames only.

### C247 — Saving the same tag a second time changes nothing

*Status:* partial. *Theorems:* `C247_id3v1`, `C247_id3v2`, `C247_riff`, `C247_aiff`, `C247_chunk`, `C247_ape`, `C247_flac`, `C247_mp4`, `C247_id3v1_refuted`, `C247_id3v2_refuted`, `C247_riff_refuted`, `C247_ape_refuted`, `C247_flac_refuted`, `C247_mp4_refuted`

The output of the first run is a file of the shape the theorems on saving (C17, C69, C89, C105, C106, C108, C116, C148) cover; apply these again. Expected to fail for empty tags, for new padding in FLAC files and where part of the new tag is taken for another tag.

*Note:* Proved for tags that are not empty: ID3v1 and ID3v2 in front in every file, RIFF INFO, AIFF text and ID3 chunks in well-formed files (as in C105, C106, C108), APE with at least 64 bytes of audio, FLAC if no padding is wanted or there is some, MP4 if there is no free atom after the old list. Refuted: an empty ID3v1 tag is removed and added in turn, an empty ID3v2 or RIFF INFO tag removes one of several at a time, an APE value is taken for an ID3v1 tag, new FLAC padding moves, MP4 free space is overwritten by the second save. OGG files are in C99.

### C248 — Saving a tag does not change what is read about the audio

*Status:* partial. *Theorems:* `C248_riff_new`, `C248_riff_replaced`, `C248_wav_id3`, `C248_wav_removed`, `C248_aiff_text_new`, `C248_aiff_text_replaced`, `C248_aiff_id3`, `C248_aiff_removed`, `C248_flac`, `C248_mpeg`, `C248_aac_partial`, `C248_ape`, `C248_wavpack`, `C248_musepack`, `C248_ogg_partial`, `C248_mp4_partial`, `C248_mp4_added_partial`, `C248_mp4_before_partial`, `C248_overall_refuted`, `C248_lost_refuted`, `C248_aac_refuted`, `C248_opus_refuted`

What is read about the audio depends on some chunks (blocks) only and, for the overall bit rate, on the length; saving keeps these chunks (C89, C105, C106, C108). Expected to fail where C106 fails: with padding, the audio after a tag that was made smaller.

*Note:* Proved for well-formed files (as in C89, C105, C106, C108). Refuted: in WAV files, with padding, a tag at least 8 bytes smaller than the one in front of the audio makes the audio and its properties unreadable. The overall bit rate counts the tags. In AAC files ten bytes of the tag count as audio, and the duration grows by what they play (80 bits, at most one millisecond more); all else is the same. MPEG files with a Xing header or a constant bit rate, and tags from generic items, as in C241; APE, WavPack (audio in one block) and Musepack files with an APE tag, as in C239. OGG files whose first packet is shorter than 255 bytes, if the renumbered last page does not happen to contain the letters OggS: all but the measured bit rates; that of the audio of an Opus file counts the page headers of the comments. MP4 files with the tables of offsets as in C116: the tag is replaced and the audio track is before it; if the tag is before the track, or the first one, for reading without tags.

### C249 — A tag that is saved and then removed leaves no trace

*Status:* partial. *Theorems:* `C249_id3v1`, `C249_id3v2`, `C249_riff`, `C249_aiff`, `C249_chunk`, `C249_ape`, `C249_flac`, `C249_chunk_refuted`, `C249_flac_refuted`, `C249_mp4_refuted`, `C249_mp4_offsets_refuted`, `C249_ape_refuted`

Chain the theorem about the first tag with the one about removal, for each format. Expected to fail for MP4 (udta and meta stay), for padding of FLAC files and for JUNK chunks in WAV files.

*Note:* Proved for ID3v1 in every file, ID3v2 in front of files without the letters ID3 in the part that is searched (tags without extended header), RIFF INFO, AIFF text and ID3 chunks in well-formed files (as in C105, C106, C108), APE with at least 64 bytes of audio, and FLAC without padding. Refuted: in WAV files with padding and bytes after the last chunk a JUNK chunk stays; FLAC padding stays; the udta and meta atoms of MP4 files stay, and the chunk offsets, which adding does not move, are moved back by removing and then point into other data; an APE value is taken for an ID3v1 tag. In OGG files the comment packet always stays.

### C250 — The tag that was saved last decides

*Status:* partial. *Theorems:* `C250_id3v1`, `C250_id3v2`, `C250_riff`, `C250_aiff`, `C250_chunk`, `C250_ape`, `C250_flac`, `C250_flac_refuted`, `C250_mp4_refuted`, `C250_id3v1_refuted`, `C250_riff_refuted`, `C250_chunk_refuted`

After the first save the file is again of the shape that the theorems on saving cover, with the same other parts; apply these for the second tag. Expected to fail for MP4 (free space), for growing ID3 chunks (C106) and for the vendor of FLAC comments.

*Note:* Proved if the first tag is not empty: ID3v1 (both not empty) and ID3v2 in front in every file, RIFF INFO, AIFF text and ID3 chunks in well-formed files (as in C105, C106, C108), APE with at least 64 bytes of audio, FLAC if the vendor that is kept is the same and no padding is wanted or there is some. Refuted: the vendor of the first FLAC comments stays, free space of MP4 files is used up, an empty ID3v1 tag is written or removed in turn, an INFO list that is removed and added is at the end, an ID3 chunk at the end that grows makes the size field wrong.

### C251 — Tags of different types can be saved in any order

*Status:* partial. *Theorems:* `C251_id3`, `C251_ape`, `C251_id3v2_ape`, `C251_aiff`, `C251_wav`, `C251_wav_refuted`, `C251_short_refuted`

Write the file as front, audio and end; each save replaces its part and keeps the others, and finds its part again whatever the other is. Expected to fail for WAV files, where both are added at the end, and for files shorter than the window of the search for ID3v2.

*Note:* Proved for ID3v1 tags that are not empty with ID3v2 tags (a tag without extended header in front, behind any junk, or none if the window is not longer than the audio) and with APE tags (at least 64 bytes of audio, an old tag or none), for ID3v2 tags in front with APE tags (at least 128 bytes of audio), and for AIFF text and ID3 chunks in well-formed files that have neither, and for RIFF INFO and ID3 chunks in WAV files that have the list. Refuted: in WAV files that have neither the chunks are in the order in which they were added; in a file shorter than the window the letters ID3 in an ID3v1 tag are taken for an ID3v2 tag.

