prop("C38","UnsynchronizedStream survives an interrupted inner read",
 "If the inner reader returns ErrorKind::Interrupted (which read_exact/read_to_end retry), the caller that retries still receives exactly the unsynchronised data.",
 "every inner reader that may return Interrupted at any point","interruption schedules are unbounded and never exercised by tests",
 ["lofty/src/id3/v2/util/synchsafe.rs: UnsynchronizedStream::read"],
 "Same state machine as C03 with an inner reader that may return Interrupted. Expected false: bytes already copied into the caller's buffer are dropped when the refill fails. Refuted with a witness.")
prop("C39","Packets::read cuts any page sequence as the lacing values say",
 "Reading any concatenation of well-formed OGG pages (however packets are spread over pages) returns exactly the packets that RFC 3533's lacing values delimit, in order, and leaves the data after the last page unread.",
 "every list of well-formed pages and every trailing non-OGG data","unbounded; packets span pages arbitrarily",
 ["ogg_pager/src/packets.rs: Packets::read, read_count"],
 "Prove the read loop computes `delace` (specification of lacing) by induction on pages and segments.")
prop("C40","Packets::read_count(n) returns the first n packets",
 "For n > 0, read_count(n) on a sequence of well-formed pages returns the first n packets that read would return, or a not-enough-data error when there are fewer.",
 "every page sequence and n","unbounded",
 ["ogg_pager/src/packets.rs: Packets::read_count"],
 "As C39 with the early-stop argument.")
prop("C41","Reading OGG packets is total and yields a consistent value",
 "On arbitrary input bytes and any count, Packets::read/read_count returns without panicking, and any returned value answers every get, set, iteration and paginate call without panicking.",
 "every byte string, every count and every later call","unbounded, adversarial input",
 ["ogg_pager/src/packets.rs","ogg_pager/src/header.rs"],
 "Invariant: sizes sum to at most the content length.")
prop("C42","Text encoding errors report the byte index of the first unencodable character",
 "When a text cannot be encoded, TextEncodingError::valid_up_to() is the byte index in the provided string up to which the encoding was valid.",
 "every Unicode string","unbounded strings, multi-byte characters",
 ["lofty/src/util/text.rs: latin1_encode, TextEncodingError::valid_up_to"],
 "Expected false: the index counts characters, but U+0080..U+00FF take two bytes in a &str. Refute, and prove it for ASCII prefixes.")
prop("C43","UTF-8 text is accepted exactly when well-formed",
 "Decoding UTF-8 text succeeds exactly when the bytes are the RFC 3629 encoding of some sequence of Unicode scalar values (no overlong forms, no surrogates), and returns that sequence without trailing NULs.",
 "every byte string","unbounded input",
 ["lofty/src/util/text.rs: utf8_decode"],
 "Inductive specification of the octet sequences; equivalence with the decoder.")
prop("C44","UTF-16 strings after the first may omit the byte order mark",
 "A terminated UTF-16 string inside a frame decodes to the same text whether it carries its own byte order mark (which wins over the inherited byte order) or relies on the inherited order; the reported length is exact and the rest is left unread.",
 "every text without NULs and BOM characters, both byte orders, every trailing data","unbounded",
 ["lofty/src/util/text.rs: utf16_decode_terminated_maybe_bom"],
 "Direct proof over the chunk reader.")
prop("C45","ID3v1 tags written by the library are readable in strict mode",
 "A tag written by the library can be read back in every parsing mode.",
 "every Id3v1Tag","depends on the interaction of writer and strict parser",
 ["lofty/src/id3/v1/write.rs: encode","lofty/src/id3/v1/read.rs: try_parse_year"],
 "Expected false for tags without a year (written as NULs, rejected in strict mode): refute, prove for tags with a year.")
prop("C46","Id3v1Tag accessors: get after set",
 "set_track(n) then track() is n; set_comment(v) stores the longest prefix of v of at most 28 bytes; set_genre(g) then genre() is g ignoring ASCII case when g is a known genre and otherwise leaves the tag unchanged.",
 "every tag, value and string","2^32 values, unbounded strings",
 ["lofty/src/id3/v1/tag.rs: Accessor for Id3v1Tag","lofty/src/id3/v1/constants.rs: GENRES"],
 "set_track truncates to u8 silently: refute for n > 255; prove the rest.")
prop("C47","ID3v1 parsing is total and bounded",
 "Parsing any 128-byte block never panics; it fails with 'fake tag' exactly when the marker is missing, otherwise only in strict mode; on success text fields are non-empty, NUL-free and at most 30 characters, the year is at most 9999, the track is non-zero and the genre is a valid index.",
 "all 256^128 blocks","256^128 blocks",
 ["lofty/src/id3/v1/read.rs: Id3v1Tag::parse"],
 "Field decomposition of the block; arithmetic bound for the year fold.")
