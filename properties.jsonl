{"id": "C01", "title": "Synchsafe integers: checked encoding is exact", "statement": "For u8, u16 and u32, `n.synch()` returns an error exactly when n needs more than 7 bits per byte of its type; otherwise every byte of the result has its top bit clear and `unsynch` of the result is n.", "quantifier": "every value of u8, u16 and u32", "why_tests_cant": "the u32 domain has 2^32 values and the result is bit-interleaved; tests only check one value per width", "anchors": ["lofty/src/id3/v2/util/synchsafe.rs: SynchsafeInteger::synch, unsynch, impl_synchsafe!"]}
{"id": "C02", "title": "Synchsafe integers: widening encoding never loses bits", "statement": "`n.widening_synch()` always succeeds, has every byte's top bit clear, fits the widened type, and reading the 7-bit groups back gives n; for u8 and u16 the library's own `unsynch` on the widened type recovers n.", "quantifier": "every value of u8, u16 and u32", "why_tests_cant": "same as C01; the widened u64 has no unsynch implementation to test against", "anchors": ["lofty/src/id3/v2/util/synchsafe.rs: widening_synch"]}
{"id": "C03", "title": "UnsynchronizedStream is independent of buffering", "statement": "Reading a stream to its end through UnsynchronizedStream yields the inner bytes with every 0x00 that directly follows a kept 0xFF removed, whatever sizes the caller's reads have and however the inner reader splits its data.", "quantifier": "every byte stream, every caller read-size schedule and every inner reader chunking (the internal buffer is 8192 bytes)", "why_tests_cant": "the number of schedules is infinite and the 0xFF flag must survive every buffer boundary", "anchors": ["lofty/src/id3/v2/util/synchsafe.rs: UnsynchronizedStream::read"]}
{"id": "C04", "title": "Unsynchronised data decodes to the original", "statement": "Applying the ID3v2 unsynchronisation scheme (insert 0x00 after every 0xFF) to any data and reading it through UnsynchronizedStream returns the data.", "quantifier": "every byte string", "why_tests_cant": "unbounded input", "anchors": ["lofty/src/id3/v2/util/synchsafe.rs: UnsynchronizedStream::read"]}
{"id": "C05", "title": "OGG page bytes round-trip", "statement": "Page::read of Page::as_bytes (followed by any bytes) returns the same flag, granule position, serial, sequence number, checksum, segment table and content, with end = start + the number of bytes consumed, and leaves the rest unread; provided the page has 1..255 segments that sum to the content length.", "quantifier": "every well-formed page and every trailing data", "why_tests_cant": "unbounded contents", "anchors": ["ogg_pager/src/lib.rs: Page::as_bytes, Page::read", "ogg_pager/src/header.rs: PageHeader::read, content_size"]}
{"id": "C06", "title": "paginate produces well-formed pages that carry exactly the packets", "statement": "For any packets, the pages returned by paginate concatenate to the packets' concatenation; every page has between 1 and 32 segments, segment sizes summing to the page's content length; serial numbers equal the given one; sequence numbers count from 0.", "quantifier": "every list of packets and every flags/serial/granule argument", "why_tests_cant": "packet sizes are unbounded and boundary cases (multiples of 255 and 8160) interact", "anchors": ["ogg_pager/src/paginate.rs: paginate, paginate_packet, PaginateContext::flush_page"]}
{"id": "C07", "title": "Writing packets and reading them back is the identity", "statement": "Packets::read of the bytes written by Packets::write_to returns the same packets, for every list of packets.", "quantifier": "every list of packets, including empty ones and exact multiples of the page capacity", "why_tests_cant": "unbounded sizes, boundary cases", "anchors": ["ogg_pager/src/packets.rs: Packets::read, read_count, write_to", "ogg_pager/src/paginate.rs"]}
{"id": "C08", "title": "Page flags and granule positions of paginated packets", "statement": "A page written by paginate is marked 'continued' exactly when it starts in the middle of a packet; its granule position is the given one exactly when some packet ends on it, and -1 otherwise; first/last-page flags are only set on the first/last page when requested.", "quantifier": "every list of packets and flags", "why_tests_cant": "unbounded sizes, boundary cases", "anchors": ["ogg_pager/src/paginate.rs: flush_page, paginate"]}
{"id": "C09", "title": "OGG checksum is the specified CRC-32 and catches any single-byte corruption", "statement": "crc32 equals the bit-serial CRC with polynomial 0x04C11DB7, initial value 0, no reflection; and two pages of equal length that differ in exactly one byte have different checksums.", "quantifier": "every byte string", "why_tests_cant": "unbounded strings; 256-entry table", "anchors": ["ogg_pager/src/crc.rs: CRC_LOOKUP_ARRAY, crc32"]}
{"id": "C10", "title": "Packets::set/get behave like an indexed list", "statement": "For any Packets value: get(i) is the i-th packet (None out of range); set(i,c) returns true and replaces exactly packet i when i is in range, and returns false changing nothing otherwise; len and iteration agree; this holds after any sequence of set operations.", "quantifier": "every Packets value and every sequence of set calls", "why_tests_cant": "unbounded histories; contents share one flat buffer", "anchors": ["ogg_pager/src/packets.rs: packet_span, get, set, iter, len, paginate"]}
{"id": "C11", "title": "Latin-1 text encoding", "statement": "Encoding to Latin-1 without lossy mode fails exactly when the text has a character above U+00FF; otherwise decoding the bytes returns the text without trailing NULs. In lossy mode it never fails and replaces exactly the unencodable characters by '?'.", "quantifier": "every Unicode string", "why_tests_cant": "unbounded strings", "anchors": ["lofty/src/util/text.rs: latin1_encode, latin1_decode, TextEncoding::encode, decode_text, trim_end_nulls"]}
{"id": "C12", "title": "Text round-trips in every ID3v2 encoding", "statement": "For each TextEncoding, decode_text(encode(t, terminated)) returns t, reports exactly the number of bytes consumed, and when terminated leaves the bytes after the terminator unread; for every text without NULs (and, for UTF-16, without the byte-order-mark characters).", "quantifier": "every Unicode string, every encoding, every trailing data", "why_tests_cant": "unbounded strings; surrogate pairs", "anchors": ["lofty/src/util/text.rs: TextEncoding::encode, decode_text, read_to_terminator, utf16_encode, utf16_decode_bytes, utf8_decode"]}
{"id": "C13", "title": "Decoding text never panics and is total", "statement": "decode_text on any byte string, with any encoding, BOM hint and termination flag returns a value or an error (no panic), and on success never reports more bytes than it was given.", "quantifier": "every byte string and option combination", "why_tests_cant": "unbounded inputs", "anchors": ["lofty/src/util/text.rs: decode_text, read_to_terminator"]}
{"id": "C14", "title": "ID3v1 encoding is a 128-byte block", "statement": "Encoding any ID3v1 tag either fails (a character does not fit Latin-1 and lossy mode is off) or yields exactly 128 bytes starting with \"TAG\", with a zero byte at offset 125.", "quantifier": "every Id3v1Tag value", "why_tests_cant": "unbounded field strings", "anchors": ["lofty/src/id3/v1/write.rs: encode, resize_string"]}
{"id": "C15", "title": "ID3v1 round-trip up to the format's limits", "statement": "Parsing the bytes written for a tag returns each text field truncated to 30/30/30/28 characters (up to its first NUL, empty as absent), the year capped at 9999, the track number (0 as absent) and the genre (if < 192).", "quantifier": "every tag with Latin-1 text fields", "why_tests_cant": "unbounded strings; field interactions", "anchors": ["lofty/src/id3/v1/write.rs: encode", "lofty/src/id3/v1/read.rs: Id3v1Tag::parse, decode_text, try_parse_year"]}
{"id": "C16", "title": "ID3v1 re-save is stable", "statement": "For every 128-byte block that parses, re-encoding the parsed tag and parsing again returns the same tag.", "quantifier": "every 128-byte block", "why_tests_cant": "256^128 blocks", "anchors": ["lofty/src/id3/v1/read.rs", "lofty/src/id3/v1/write.rs"]}
{"id": "C17", "title": "Saving an ID3v1 tag touches only the trailing 128 bytes", "statement": "Saving a non-empty tag to a file keeps every byte of the file that is not part of an existing trailing ID3v1 block, and afterwards the file ends with the encoded tag; saving an empty tag removes an existing block and otherwise leaves the file unchanged; at any crash point during the save the bytes before the block are intact.", "quantifier": "every file content, every tag, every crash point", "why_tests_cant": "unbounded files; crash points", "anchors": ["lofty/src/id3/v1/write.rs: write_id3v1", "lofty/src/id3/mod.rs: find_id3v1"]}
{"id": "C18", "title": "Timestamp display/parse round-trip", "statement": "For every timestamp that passes verification, parsing its to_string() in any parsing mode returns the same timestamp; the string is at most 19 bytes long.", "quantifier": "every valid Timestamp and every ParsingMode", "why_tests_cant": "10^4*13*32*24*60*60 values x modes", "anchors": ["lofty/src/tag/items/timestamp.rs: Display, Timestamp::parse, segment, verify"]}
{"id": "C19", "title": "Timestamp order is the lexicographic order of its text", "statement": "For verified timestamps, a.cmp(b) equals the byte-wise comparison of a.to_string() and b.to_string(); cmp is a total order and is Equal only for equal timestamps.", "quantifier": "every pair of timestamps", "why_tests_cant": "quadratic in a huge domain", "anchors": ["lofty/src/tag/items/timestamp.rs: Ord, Display"]}
{"id": "C20", "title": "Timestamp parsing never panics and bounds its fields", "statement": "Timestamp::parse on any bytes in any mode returns without panicking; a returned timestamp has year <= 9999 and all other fields <= 99, and a field is present only if its parent is.", "quantifier": "every byte string, every mode", "why_tests_cant": "unbounded input; contains assert_ne! and unchecked arithmetic", "anchors": ["lofty/src/tag/items/timestamp.rs: parse, segment"]}
{"id": "C21", "title": "Star ratings survive conversion", "statement": "For each rating provider (MusicBee, Windows Media Player, Picard, default) and every tag type, convert_raw(rate(r)) = r; rate is strictly increasing; convert_raw is monotone.", "quantifier": "every provider, tag type, star rating and raw byte", "why_tests_cant": "finite but untested", "anchors": ["lofty/src/tag/items/popularimeter.rs: RatingProvider impls"]}
{"id": "C22", "title": "Popularimeter text form round-trips", "statement": "Parsing a Popularimeter's to_string() yields the same email, rating and play counter.", "quantifier": "every email, rating and u64 counter", "why_tests_cant": "unbounded strings; separator inside the email", "anchors": ["lofty/src/tag/items/popularimeter.rs: Display, from_str"]}
{"id": "C23", "title": "ItemKey mapping tables are mutually consistent", "statement": "For every tag type and every ItemKey k that maps to a format key s, from_key(s) is defined and maps back to s; and from_key(s) = k except for the documented many-to-one keys.", "quantifier": "every tag type and ItemKey", "why_tests_cant": "tables of several hundred entries; duplicates silently override each other", "anchors": ["lofty/src/tag/item.rs: gen_map!, ItemKey::map_key, ItemKey::from_key"]}
{"id": "C24", "title": "ItemKey::from_key is case-insensitive and independent of hash order", "statement": "from_key(tt, s) depends only on the ASCII-lowercase form of s, and the iteration order of the internal HashMap cannot change its result.", "quantifier": "every tag type, every string, every iteration order", "why_tests_cant": "unbounded strings; hash order is random per process", "anchors": ["lofty/src/tag/item.rs: gen_map! get_item_key"]}
{"id": "C25", "title": "Tag::insert / get / remove laws", "statement": "After insert(item) that returns true, get(key) returns that item and it is the only item with the key; items with other keys keep their order; insert returns false exactly when the key has no mapping and then changes nothing; remove_key removes exactly the items with the key.", "quantifier": "every tag, item and operation history", "why_tests_cant": "unbounded tags and histories", "anchors": ["lofty/src/tag/mod.rs: Tag::insert, insert_unchecked, push, get, remove_key, retain", "lofty/src/tag/item.rs: TagItem::re_map"]}
{"id": "C26", "title": "Tag::take_filter returns selected items in order and preserves the rest's order", "statement": "take_filter(key, f) returns exactly the items with the key satisfying f, in their original order, and the tag then holds exactly the other items in their original order.", "quantifier": "every tag, key and filter", "why_tests_cant": "unbounded tags", "anchors": ["lofty/src/tag/mod.rs: Tag::take_filter"]}
{"id": "C27", "title": "Tag::re_map keeps exactly the supported items", "statement": "re_map(tt) keeps, in order, exactly the items whose key is supported by tt, drops format-specific data and sets the type; it is idempotent.", "quantifier": "every tag and tag type", "why_tests_cant": "unbounded tags", "anchors": ["lofty/src/tag/mod.rs: re_map", "lofty/src/tag/item.rs: re_map", "lofty/src/id3/v1/constants.rs: VALID_ITEMKEYS"]}
{"id": "C28", "title": "APE tag dump/read round-trip", "statement": "Reading back the bytes dumped for an APE tag returns the same items (key, value kind, value, read-only bit) in the same order, for every tag whose items pass ApeItem::new, with case-insensitively distinct keys, text without trailing NULs and total size below 2^32-32.", "quantifier": "every such tag", "why_tests_cant": "unbounded tags", "anchors": ["lofty/src/ape/tag/write.rs: create_ape_tag", "lofty/src/ape/tag/read.rs: read_ape_tag, read_ape_tag_with_header", "lofty/src/ape/tag/header.rs"]}
{"id": "C29", "title": "APE item keys stay unique ignoring case", "statement": "Starting from an empty ApeTag, after any sequence of insert/push/remove/set operations and after reading any bytes, no two items have keys equal ignoring ASCII case; get(key) after insert returns the inserted item.", "quantifier": "every operation history, every input bytes", "why_tests_cant": "unbounded histories", "anchors": ["lofty/src/ape/tag/mod.rs: insert, push, remove, get"]}
{"id": "C30", "title": "APE multi-value text", "statement": "Pushing text values v1..vn (without NULs) under one key yields an item whose text_values() is v1..vn in order.", "quantifier": "every non-empty list of strings", "why_tests_cant": "unbounded", "anchors": ["lofty/src/ape/tag/mod.rs: push", "lofty/src/ape/tag/item.rs: text_values"]}
{"id": "C31", "title": "APE track/disc number pairs", "statement": "On an ApeTag, set_track(n) then track() gives n and leaves track_total() unchanged; set_track_total(m) gives m and leaves track() unchanged when it was set; likewise for discs; remove_track_total keeps track().", "quantifier": "every tag state reachable through the accessors and every u32", "why_tests_cant": "2^64 pairs; text encoding of numbers", "anchors": ["lofty/src/ape/tag/mod.rs: split_num_pair, insert_number_pair", "lofty/src/id3/v2/util/pairs.rs: format_number_pair"]}
{"id": "C32", "title": "ID3v2 tag restrictions byte", "statement": "TagRestrictions::from_byte(r.as_bytes()) = r and from_byte(b).as_bytes() = b.", "quantifier": "every restriction value and every byte", "why_tests_cant": "finite; not tested", "anchors": ["lofty/src/id3/v2/restrictions.rs: from_byte, as_bytes"]}
{"id": "C33", "title": "ID3v2 header flags survive a write/read cycle", "statement": "Parsing a 10-byte ID3v2 header whose flag byte was produced by as_id3v24_byte (resp. as_id3v23_byte) restores the unsynchronisation, experimental and footer flags (resp. experimental and footer) and does not announce an extended header.", "quantifier": "every flag combination and size", "why_tests_cant": "interaction of writer and parser versions", "anchors": ["lofty/src/id3/v2/header.rs: as_id3v24_byte, as_id3v23_byte, Id3v2Header::parse"]}
{"id": "C34", "title": "ID3v2 header sizes are sane", "statement": "Whenever Id3v2Header::parse succeeds, the size is below 2^28, the extended size is smaller than the size (or zero), and full_tag_size does not overflow u32.", "quantifier": "every byte string", "why_tests_cant": "unbounded input", "anchors": ["lofty/src/id3/v2/header.rs: Id3v2Header::parse, full_tag_size, read_extended_header"]}
{"id": "C35", "title": "Lyrics3v2 blocks are recognised and skipped", "statement": "If the bytes before the current position end with a Lyrics3v2 footer (6 digit size and \"LYRICS200\"), the search reports it and seeks to its start.", "quantifier": "every file content", "why_tests_cant": "unbounded", "anchors": ["lofty/src/id3/mod.rs: find_lyrics3v2"]}
{"id": "C36", "title": "80-bit float conversion", "statement": "For every F80 whose exponent is in the f64 normal range, as_f64 has the same sign and exponent and the fraction truncated to 52 bits; infinities, NaN and zero map to themselves; out-of-range exponents do not produce garbage.", "quantifier": "all 2^80 inputs", "why_tests_cant": "2^80 inputs", "anchors": ["lofty/src/util/math.rs: F80::from_be_bytes, as_f64"]}
{"id": "C37", "title": "Rounded division", "statement": "a.div_round(b) is a/b rounded to nearest (ties up) whenever a + b/2 does not overflow the type.", "quantifier": "all pairs of unsigned integers of each width", "why_tests_cant": "2^128 pairs", "anchors": ["lofty/src/util/math.rs: div_round"]}
{"id": "C38", "title": "UnsynchronizedStream survives an interrupted inner read", "statement": "If the inner reader returns ErrorKind::Interrupted (which read_exact/read_to_end retry), the caller that retries still receives exactly the unsynchronised data.", "quantifier": "every inner reader that may return Interrupted at any point", "why_tests_cant": "interruption schedules are unbounded and never exercised by tests", "anchors": ["lofty/src/id3/v2/util/synchsafe.rs: UnsynchronizedStream::read"]}
{"id": "C39", "title": "Packets::read cuts any page sequence as the lacing values say", "statement": "Reading any concatenation of well-formed OGG pages (however packets are spread over pages) returns exactly the packets that RFC 3533's lacing values delimit, in order, and leaves the data after the last page unread.", "quantifier": "every list of well-formed pages and every trailing non-OGG data", "why_tests_cant": "unbounded; packets span pages arbitrarily", "anchors": ["ogg_pager/src/packets.rs: Packets::read, read_count"]}
{"id": "C40", "title": "Packets::read_count(n) returns the first n packets", "statement": "For n > 0, read_count(n) on a sequence of well-formed pages returns the first n packets that read would return, or a not-enough-data error when there are fewer.", "quantifier": "every page sequence and n", "why_tests_cant": "unbounded", "anchors": ["ogg_pager/src/packets.rs: Packets::read_count"]}
{"id": "C41", "title": "Reading OGG packets is total and yields a consistent value", "statement": "On arbitrary input bytes and any count, Packets::read/read_count returns without panicking, and any returned value answers every get, set, iteration and paginate call without panicking.", "quantifier": "every byte string, every count and every later call", "why_tests_cant": "unbounded, adversarial input", "anchors": ["ogg_pager/src/packets.rs", "ogg_pager/src/header.rs"]}
{"id": "C42", "title": "Text encoding errors report the byte index of the first unencodable character", "statement": "When a text cannot be encoded, TextEncodingError::valid_up_to() is the byte index in the provided string up to which the encoding was valid.", "quantifier": "every Unicode string", "why_tests_cant": "unbounded strings, multi-byte characters", "anchors": ["lofty/src/util/text.rs: latin1_encode, TextEncodingError::valid_up_to"]}
{"id": "C43", "title": "UTF-8 text is accepted exactly when well-formed", "statement": "Decoding UTF-8 text succeeds exactly when the bytes are the RFC 3629 encoding of some sequence of Unicode scalar values (no overlong forms, no surrogates), and returns that sequence without trailing NULs.", "quantifier": "every byte string", "why_tests_cant": "unbounded input", "anchors": ["lofty/src/util/text.rs: utf8_decode"]}
{"id": "C44", "title": "UTF-16 strings after the first may omit the byte order mark", "statement": "A terminated UTF-16 string inside a frame decodes to the same text whether it carries its own byte order mark (which wins over the inherited byte order) or relies on the inherited order; the reported length is exact and the rest is left unread.", "quantifier": "every text without NULs and BOM characters, both byte orders, every trailing data", "why_tests_cant": "unbounded", "anchors": ["lofty/src/util/text.rs: utf16_decode_terminated_maybe_bom"]}
{"id": "C45", "title": "ID3v1 tags written by the library are readable in strict mode", "statement": "A tag written by the library can be read back in every parsing mode.", "quantifier": "every Id3v1Tag", "why_tests_cant": "depends on the interaction of writer and strict parser", "anchors": ["lofty/src/id3/v1/write.rs: encode", "lofty/src/id3/v1/read.rs: try_parse_year"]}
{"id": "C46", "title": "Id3v1Tag accessors: get after set", "statement": "set_track(n) then track() is n; set_comment(v) stores the longest prefix of v of at most 28 bytes; set_genre(g) then genre() is g ignoring ASCII case when g is a known genre and otherwise leaves the tag unchanged.", "quantifier": "every tag, value and string", "why_tests_cant": "2^32 values, unbounded strings", "anchors": ["lofty/src/id3/v1/tag.rs: Accessor for Id3v1Tag", "lofty/src/id3/v1/constants.rs: GENRES"]}
{"id": "C47", "title": "ID3v1 parsing is total and bounded", "statement": "Parsing any 128-byte block never panics; it fails with 'fake tag' exactly when the marker is missing, otherwise only in strict mode; on success text fields are non-empty, NUL-free and at most 30 characters, the year is at most 9999, the track is non-zero and the genre is a valid index.", "quantifier": "all 256^128 blocks", "why_tests_cant": "256^128 blocks", "anchors": ["lofty/src/id3/v1/read.rs: Id3v1Tag::parse"]}
{"id": "C48", "title": "What strict timestamp parsing accepts", "statement": "In strict mode Timestamp::parse accepts only (the first 19 bytes of) the ISO 8601 extended or basic form of the timestamp it returns, followed by nothing unless the seconds are present; both forms are accepted in every mode; and whatever any mode returns re-parses to itself from its to_string().", "quantifier": "every byte string, every mode", "why_tests_cant": "unbounded input; the space of malformed timestamps", "anchors": ["lofty/src/tag/items/timestamp.rs: parse, segment, Display"]}
{"id": "C49", "title": "Unpadded fields in lenient modes", "statement": "Outside strict mode a month, day, hour, minute or second written as '06', ' 6' or '6' is read as 6.", "quantifier": "every timestamp and every way of writing its fields", "why_tests_cant": "combinations of spellings over five fields", "anchors": ["lofty/src/tag/items/timestamp.rs: segment"]}
{"id": "C50", "title": "A stored star rating reads back with the same stars", "statement": "Take a Popularimeter parsed from text; store its mapped_value for any tag type together with its email and counter; Popularimeter::mapped on these returns the same email, stars and counter, for every installed rating provider that satisfies convert_raw(rate(r)) = r.", "quantifier": "every text, every tag type, every lawful custom provider", "why_tests_cant": "the provider is user code and the text is unbounded", "anchors": ["lofty/src/tag/items/popularimeter.rs: from_str, mapped, mapped_value"]}
{"id": "C51", "title": "Where searching an ID3v2 tag leaves the stream, and its full size", "statement": "find_id3v2 leaves the reader at the end of the tag (10 + size + footer bytes after its start) and returns exactly its `size` content bytes; Id3v2Header::full_tag_size is the tag's length in the file.", "quantifier": "every tag, position and content", "why_tests_cant": "needs all combinations of flags, sizes and extended headers", "anchors": ["lofty/src/id3/mod.rs: find_id3v2", "lofty/src/id3/v2/header.rs: full_tag_size"]}
{"id": "C52", "title": "After the ID3v2 header the reader is at the first frame", "statement": "Id3v2Header::parse consumes exactly the header and the extended header (ID3v2.3 and ID3v2.4 layouts) and reports the CRC flag and restrictions stored there.", "quantifier": "every well-formed extended header and following bytes", "why_tests_cant": "layouts of two versions times flags times content", "anchors": ["lofty/src/id3/v2/header.rs: parse, read_extended_header"]}
{"id": "C53", "title": "find_id3v2 without a tag does not move", "statement": "If there is no ID3v2 tag at the current position, find_id3v2 returns no header and leaves the position unchanged, and does not fail.", "quantifier": "every stream and position", "why_tests_cant": "stream contents are unbounded; short streams", "anchors": ["lofty/src/id3/mod.rs: find_id3v2 (its documentation)"]}
{"id": "C54", "title": "The search for ID3v2 in junk finds the first marker", "statement": "find_id3v2_in_junk finds the first occurrence of \"ID3\" in the window, never panics, and returns none only when there is none; with junk (not containing \"ID3\", also not overlapping the tag's start) before a tag, find_id3v2 returns that tag's content and ends after it.", "quantifier": "every window and every junk", "why_tests_cant": "unbounded junk, overlaps such as \"IID3\"", "anchors": ["lofty/src/id3/mod.rs: find_id3v2_in_junk, find_id3v2"]}
{"id": "C55", "title": "TagItem::new_checked agrees with Tag::insert", "statement": "TagItem::new_checked(tag_type, key, value) returns an item exactly when Tag::insert accepts that item for the tag type.", "quantifier": "every tag type, key, value and tag", "why_tests_cant": "over a hundred keys times seven tag types", "anchors": ["lofty/src/tag/item.rs: TagItem::new_checked, re_map", "lofty/src/tag/mod.rs: insert"]}
{"id": "C56", "title": "FLAC picture block round-trip", "statement": "Picture::from_flac_bytes(as_flac_bytes(p, info, encode), encode) returns the same picture and picture information, with and without base64.", "quantifier": "every picture, information, encoding flag and parsing mode", "why_tests_cant": "unbounded pictures, descriptions and MIME strings", "anchors": ["lofty/src/picture/mod.rs: as_flac_bytes, from_flac_bytes, MimeType"]}
{"id": "C57", "title": "Reading a FLAC picture block never panics", "statement": "Picture::from_flac_bytes returns a picture or an error for every byte string.", "quantifier": "every byte string and mode", "why_tests_cant": "unbounded hostile lengths", "anchors": ["lofty/src/picture/mod.rs: from_flac_bytes_inner"]}
{"id": "C58", "title": "APE picture round-trip", "statement": "Reading the bytes of as_ape_bytes under the picture type's APE key returns the same picture; reading never panics.", "quantifier": "every picture with an APE key", "why_tests_cant": "unbounded pictures and descriptions", "anchors": ["lofty/src/picture/mod.rs: as_ape_bytes, from_ape_bytes, PictureType::as_ape_key"]}
{"id": "C59", "title": "PNG picture information", "statement": "PictureInformation::from_png returns width, height, bits per pixel (bit depth times channels) and palette size of every PNG; never panics.", "quantifier": "every PNG header, chunk sequence and byte string", "why_tests_cant": "all colour types, arbitrary chunk sequences before the palette", "anchors": ["lofty/src/picture/mod.rs: PictureInformation::from_png"]}
{"id": "C60", "title": "JPEG picture information", "statement": "PictureInformation::from_jpeg returns width, height and bits per pixel from the first SOF0/SOF2 segment after any segments, and never panics.", "quantifier": "every JPEG segment sequence and byte string", "why_tests_cant": "arbitrary segments, hostile segment lengths", "anchors": ["lofty/src/picture/mod.rs: PictureInformation::from_jpeg"]}
{"id": "C61", "title": "Picture type codes and APE keys are inverse", "statement": "PictureType::from_u8/as_u8 and from_ape_key/as_ape_key are inverse to each other; unknown APE keys give Undefined(0).", "quantifier": "every byte, picture type and string", "why_tests_cant": "strings are unbounded", "anchors": ["lofty/src/picture/mod.rs: PictureType"]}
{"id": "C62", "title": "Picture::from_reader recognises only by signature", "statement": "Picture::from_reader keeps the data unchanged and reports PNG, JPEG, GIF, BMP or TIFF only for data starting with that signature, fails with NotAPicture otherwise, never panics.", "quantifier": "every byte string", "why_tests_cant": "all prefixes", "anchors": ["lofty/src/picture/mod.rs: Picture::from_reader, mimetype_from_bin"]}
{"id": "C63", "title": "A tag only ever holds items its type supports", "statement": "Starting from an empty tag, any sequence of the safe Tag operations (insert, push, insert_text, accessors, remove, retain, take, take_filter, take_strings, re_map, pictures, clear) leaves only items whose key is supported by the tag's type.", "quantifier": "every operation sequence and tag type", "why_tests_cant": "unbounded histories, changing tag types", "anchors": ["lofty/src/tag/mod.rs: Tag"]}
{"id": "C64", "title": "Tag accessors are a consistent store", "statement": "After setting a text field, a number or the date, the accessor returns that value and all other fields are unchanged; after removing, it returns nothing; which accessors have an effect for which tag type.", "quantifier": "every tag, value and timestamp", "why_tests_cant": "unbounded tags and values", "anchors": ["lofty/src/tag/mod.rs: Accessor for Tag", "lofty/src/tag/items/timestamp.rs"]}
{"id": "C65", "title": "Id3v1Tag to Tag to Id3v1Tag", "statement": "Converting an Id3v1Tag to a Tag and back returns the same fields, also through the path that writes a Tag directly.", "quantifier": "every Id3v1Tag", "why_tests_cant": "combinations of optional fields", "anchors": ["lofty/src/id3/v1/tag.rs: SplitTag, From<Tag> for Id3v1Tag, Into<Id3v1TagRef>"]}
{"id": "C66", "title": "Saving a Tag as ID3v1 equals converting it first", "statement": "Writing a Tag directly as ID3v1 stores the same fields as converting it to Id3v1Tag (From<Tag>) and writing that, namely the first value of each field.", "quantifier": "every Tag", "why_tests_cant": "unbounded tags; depends on the order of unrelated items", "anchors": ["lofty/src/id3/v1/tag.rs: From<Tag> for Id3v1Tag, Into<Id3v1TagRef> for &Tag"]}
{"id": "C67", "title": "The read-only flag of an APE tag survives", "statement": "An ApeTag marked read-only (ApeTag::read_only) is still marked read-only after being written and read again.", "quantifier": "every ApeTag", "why_tests_cant": "flag bits of a format field", "anchors": ["lofty/src/ape/tag/mod.rs: ApeTag", "lofty/src/ape/tag/read.rs: read_ape_tag_with_header", "lofty/src/ape/tag/write.rs: create_ape_tag"]}
{"id": "C68", "title": "respect_read_only keeps the read-only items of the old APE tag", "statement": "With WriteOptions::respect_read_only, saving an APE tag keeps the items of the existing tag that are marked read-only (\"these items will take priority over newly created tag items\").", "quantifier": "every file with an APE tag and every new tag", "why_tests_cant": "all pairs of old and new tags", "anchors": ["lofty/src/ape/tag/write.rs: write_to, create_ape_tag", "lofty/src/config/write_options.rs: respect_read_only"]}
{"id": "C69", "title": "Saving an APE tag replaces the old one and keeps every other byte", "statement": "Saving (or removing) an APE tag changes nothing but the APE tag: the bytes before it, and an ID3v1 tag after it, are kept unchanged, and the file has exactly one APE tag afterwards.", "quantifier": "every file (audio, old tag, ID3v1 tag) and new tag", "why_tests_cant": "unbounded files; all layouts", "anchors": ["lofty/src/ape/tag/write.rs: write_to", "lofty/src/ape/tag/header.rs: read_ape_header", "lofty/src/id3/mod.rs: find_id3v1, find_lyrics3v2, find_id3v2"]}
{"id": "C70", "title": "Reading APE data never panics", "statement": "Reading an APE tag, and an APE file without its audio properties, from any bytes returns a value or an error.", "quantifier": "every byte string", "why_tests_cant": "arbitrary sizes and counts", "anchors": ["lofty/src/ape/tag/read.rs: read_ape_tag", "lofty/src/ape/read.rs: read_from"]}
{"id": "C71", "title": "A crash while saving an APE tag does not lose the audio", "statement": "If the process dies at any point while an APE tag is saved, the file still has the audio bytes it had before.", "quantifier": "every file, tag and crash point", "why_tests_cant": "crash points cannot be sampled by ordinary tests", "anchors": ["lofty/src/ape/tag/write.rs: write_to"]}
{"id": "C72", "title": "APE files with the tag at the start can be read and saved", "statement": "A Monkey's Audio file whose APE tag comes before the audio can be read (the reader has code for it), and saving replaces that tag.", "quantifier": "every such file", "why_tests_cant": "all tags and audio contents", "anchors": ["lofty/src/ape/read.rs: read_from", "lofty/src/ape/tag/write.rs: write_to"]}
{"id": "C73", "title": "ApeTag and Tag conversions keep the information", "statement": "split_tag followed by merge_tag returns an equivalent ApeTag (same items), and converting a Tag to ApeTag and back keeps, for every key APE supports, its texts in order.", "quantifier": "every ApeTag and Tag", "why_tests_cant": "unbounded tags, interaction of keys", "anchors": ["lofty/src/ape/tag/mod.rs: SplitTag, MergeTag, From<ApeTag> for Tag, From<Tag> for ApeTag"]}
{"id": "C74", "title": "Saving a Tag as APE equals converting it first", "statement": "Writing a Tag directly as APE stores the same items as converting it to ApeTag (From<Tag>) and writing that; in particular all values and pictures are in the file.", "quantifier": "every Tag", "why_tests_cant": "unbounded tags", "anchors": ["lofty/src/ape/tag/mod.rs: tagitems_into_ape, MergeTag for SplitTagRemainder"]}
{"id": "C75", "title": "Reverse search finds the last match in the window", "statement": "Searching backwards for a pattern, with any buffer at least as long as the pattern, finds the last occurrence that lies in the searched window, leaves the reader at it, and reports no match only if there is none. Without a match the reader is back where it was.", "quantifier": "every stream, pattern, buffer size, start and end", "why_tests_cant": "matches across buffer boundaries depend on sizes", "anchors": ["lofty/src/util/io.rs: RevPatternSearcher, RevSearchStart, RevSearchEnd"]}
{"id": "C76", "title": "Replacing a range of a FLAC file in place", "statement": "Replacing the bytes of a range by others of any length leaves exactly the bytes before the range, the new bytes and the bytes after it.", "quantifier": "every file, range, replacement and buffer size", "why_tests_cant": "chunked moves in both directions; off-by-one errors depend on sizes", "anchors": ["lofty/src/flac/write.rs: replace_range, shift_left, shift_right"]}
{"id": "C77", "title": "A crash while a FLAC file is rewritten does not lose audio", "statement": "If the process dies at any point while a range is replaced in place, the bytes after the range are still in the file.", "quantifier": "every file, range, replacement and crash point", "why_tests_cant": "crash points cannot be sampled by ordinary tests", "anchors": ["lofty/src/flac/write.rs: replace_range"]}
{"id": "C78", "title": "Vorbis comments survive a write/read cycle", "statement": "Every VorbisComments written as a packet (any signature, with or without framing bit) reads back as the same vendor, fields and pictures in the same order.", "quantifier": "every tag, options, signature and trailing bytes", "why_tests_cant": "unbounded text and picture content", "anchors": ["lofty/src/ogg/tag/write.rs: create_metadata_packet, create_comments, create_pictures", "lofty/src/ogg/tag/read.rs: read_comments"]}
{"id": "C79", "title": "Number pairs in Vorbis comments", "statement": "Reading TRACKNUMBER or DISCNUMBER (in any case) with a value a/b gives number a and total b; a value that is no number is kept as text, and with implicit conversions off every value is. No field read earlier is lost.", "quantifier": "every tag state, a, b, spelling of the name", "why_tests_cant": "depends on the fields read before", "anchors": ["lofty/src/ogg/tag/read.rs: read_comments"]}
{"id": "C80", "title": "Reading Vorbis comments never panics", "statement": "Reading comments from any bytes, in any mode, returns a value or an error.", "quantifier": "every byte string and options", "why_tests_cant": "arbitrary lengths, counts and encodings", "anchors": ["lofty/src/ogg/tag/read.rs: read_comments", "lofty/src/picture/mod.rs: mimetype_from_bin"]}
{"id": "C81", "title": "Fields of Vorbis comments in memory", "statement": "get returns the first and get_all all values of a field regardless of case; insert leaves exactly one value; push appends; invalid names change nothing; the number and date accessors return what was set, nothing after removal, and leave other fields alone.", "quantifier": "every tag state, name and value", "why_tests_cant": "all interactions of fields", "anchors": ["lofty/src/ogg/tag.rs: VorbisComments, Accessor"]}
{"id": "C82", "title": "Removing a field of Vorbis comments", "statement": "remove returns the values of the field in order, removes exactly these, and leaves all other fields as they were, so that get of another name returns the same value.", "quantifier": "every tag state and name", "why_tests_cant": "the order after removal depends on positions", "anchors": ["lofty/src/ogg/tag.rs: VorbisComments::remove"]}
{"id": "C83", "title": "Every field that is read can be reached", "statement": "Every field of VorbisComments that was read from any bytes has a valid name, so get with this name returns a value.", "quantifier": "every byte string and options", "why_tests_cant": "arbitrary input", "anchors": ["lofty/src/ogg/tag/read.rs: read_comments, valid_vorbis_comments_key", "lofty/src/ogg/tag.rs: get, verify_key"]}
{"id": "C84", "title": "Merging a Tag into Vorbis comments", "statement": "Merging a Tag keeps the remainder first and then stores each text whose key has a name under this name, in order; the encoder becomes the vendor; pictures are stored with their information.", "quantifier": "every Tag and remainder", "why_tests_cant": "unbounded tags, interaction of keys", "anchors": ["lofty/src/ogg/tag.rs: MergeTag for SplitTagRemainder", "lofty/src/tag/mod.rs: take"]}
{"id": "C85", "title": "Vorbis comments survive splitting and merging", "statement": "split_tag followed by merge_tag gives the same vendor, fields and pictures.", "quantifier": "every tag", "why_tests_cant": "unbounded tags, interaction of keys", "anchors": ["lofty/src/ogg/tag.rs: SplitTag, MergeTag"]}
{"id": "C86", "title": "Saving a Tag as Vorbis comments equals converting it first", "statement": "Writing a Tag directly as Vorbis comments stores what converting it to VorbisComments first would store.", "quantifier": "every Tag", "why_tests_cant": "unbounded tags", "anchors": ["lofty/src/ogg/tag.rs: create_vorbis_comments_ref, From<Tag> for VorbisComments"]}
{"id": "C87", "title": "Picture storage of Vorbis comments and FLAC", "statement": "Inserting appends a picture, an icon replacing the icon of its kind; there is never more than one icon of each kind; setting by index replaces or appends; removing a type removes exactly its pictures; a failed insertion changes nothing.", "quantifier": "every list of pictures", "why_tests_cant": "all orders of operations", "anchors": ["lofty/src/ogg/picture_storage.rs: OggPictureStorage"]}
{"id": "C88", "title": "FLAC metadata blocks round trip", "statement": "A metadata block is written with its type, last flag and length and read back as itself, whatever surrounds it; a content of 16 MiB or more is refused.", "quantifier": "every block, every surrounding bytes", "why_tests_cant": "all sizes, flags and types", "anchors": ["lofty/src/flac/block.rs: Block::read, Block::write_to"]}
{"id": "C89", "title": "Saving a FLAC file touches only comments, pictures and padding", "statement": "After saving, the ID3v2 tag in front, the stream information, every block that is neither comments nor picture (in order, same content) and the audio are the same; after them stand exactly the comment block, the picture blocks and the padding block asked for. If there is nothing to store and nothing to remove the file is not written.", "quantifier": "every well-formed FLAC file, every tag", "why_tests_cant": "unbounded block lists and positions", "anchors": ["lofty/src/flac/write.rs: write_to_inner, encode_tag", "lofty/src/flac/read.rs: verify_flac"]}
{"id": "C90", "title": "A saved FLAC file reads back as saved", "statement": "Reading a FLAC file after saving gives the fields and pictures that were saved, and the vendor.", "quantifier": "every FLAC file, every tag", "why_tests_cant": "unbounded tags and files", "anchors": ["lofty/src/flac/mod.rs: AudioFile::save_to", "lofty/src/flac/write.rs", "lofty/src/flac/read.rs: read_from"]}
{"id": "C91", "title": "Reading and saving FLAC files is total", "statement": "No file content makes reading or saving panic.", "quantifier": "every byte sequence", "why_tests_cant": "all inputs", "anchors": ["lofty/src/flac/read.rs: read_from", "lofty/src/flac/block.rs: Block::read", "lofty/src/flac/write.rs: write_to_inner", "lofty/src/flac/properties.rs: read_properties"]}
{"id": "C92", "title": "Removing everything and saving removes it from the FLAC file", "statement": "After taking away comments and pictures of a FlacFile, saving it leaves a file without them.", "quantifier": "every FLAC file", "why_tests_cant": "needs a state of the file and of the object", "anchors": ["lofty/src/flac/mod.rs: FlacFile::write_to"]}
{"id": "C93", "title": "Padding absorbs changes of FLAC metadata", "statement": "If the new metadata and the wanted padding fit into the old metadata, the file keeps its length and the audio its position.", "quantifier": "every FLAC file without padding block, every tag", "why_tests_cant": "sizes", "anchors": ["lofty/src/flac/write.rs: write_to_inner"]}
{"id": "C94", "title": "FLAC properties are those of STREAMINFO", "statement": "Sample rate, channels, bit depth, MD5 sum are the stored ones; the duration in milliseconds is the number of samples times 1000 divided by the rate, rounded down; the bit rates are bits per millisecond.", "quantifier": "every value of the fields", "why_tests_cant": "all bit patterns", "anchors": ["lofty/src/flac/properties.rs: read_properties"]}
{"id": "C95", "title": "Saving an OGG file replaces the comment packet and nothing else", "statement": "After saving to an Opus, Vorbis or Speex file the header pages hold the same identification (and setup) packet and the new comment packet, in well-formed pages of the stream's serial number numbered from 0; the pages after them have the same packets, flags, positions and serial numbers, are numbered consecutively, and all checksums are right.", "quantifier": "every well-formed file, every tag", "why_tests_cant": "unbounded files, packets over any number of pages", "anchors": ["lofty/src/ogg/tag/write.rs: write_to, write, create_metadata_packet"]}
{"id": "C96", "title": "Saving an OGG file loses no data", "statement": "All data of the file other than the comments is still there after saving: audio beginning on the last header page, pages after bytes that are no page, other logical streams, and the binary data that RFC 7845 lets follow the Opus comments.", "quantifier": "every file", "why_tests_cant": "needs odd but legal files", "anchors": ["lofty/src/ogg/tag/write.rs: write_to, write"]}
{"id": "C97", "title": "A crash while saving an OGG file", "statement": "Which states a crash during saving can leave behind.", "quantifier": "every file, tag and crash point", "why_tests_cant": "crash points", "anchors": ["lofty/src/ogg/tag/write.rs: write_to"]}
{"id": "C98", "title": "A saved OGG file reads back as saved", "statement": "Reading an OGG file after saving gives the fields, pictures and vendor that were saved.", "quantifier": "every well-formed file, every tag", "why_tests_cant": "unbounded tags and files", "anchors": ["lofty/src/ogg/tag/write.rs: write_to", "lofty/src/ogg/read.rs: read_from, read_comments"]}
{"id": "C99", "title": "Saving an OGG file twice is like saving it once", "statement": "Saving the same tag again leaves every byte of the file as it is.", "quantifier": "every well-formed file, every tag", "why_tests_cant": "relation of two runs", "anchors": ["lofty/src/ogg/tag/write.rs: write_to"]}
{"id": "C100", "title": "The last page of an OGG file is found", "statement": "find_last_page gives the last page of the file.", "quantifier": "every file", "why_tests_cant": "needs capture patterns in odd places", "anchors": ["lofty/src/ogg/mod.rs: find_last_page", "ogg_pager: Page::read"]}
{"id": "C101", "title": "Properties of OGG files", "statement": "Channels, rates, gain and bit rates are the stored ones; the duration is the difference of the granule positions (minus pre-skip for Opus) divided by the rate, to the nearest millisecond; the other bit rates are bits per millisecond; the Opus channel mask is the layout of RFC 7845.", "quantifier": "all field values and files", "why_tests_cant": "all bit patterns", "anchors": ["lofty/src/ogg/opus/properties.rs: read_properties", "lofty/src/ogg/vorbis/properties.rs: read_properties", "lofty/src/ogg/speex/properties.rs: read_properties"]}
{"id": "C102", "title": "Reading OGG files is total", "statement": "No file content makes reading an OGG file panic.", "quantifier": "every byte sequence", "why_tests_cant": "all inputs", "anchors": ["lofty/src/ogg/read.rs: read_from", "lofty/src/ogg/opus/properties.rs", "lofty/src/ogg/vorbis/properties.rs", "lofty/src/ogg/speex/properties.rs"]}
{"id": "C103", "title": "Every chunk of an IFF file is visited", "statement": "Going through the chunks of a file gives identifier, size, start and content of each, whatever part of each chunk the caller reads, with and without pad bytes.", "quantifier": "all lists of chunks, all amounts read", "why_tests_cant": "unbounded files and every way of reading", "anchors": ["lofty/src/iff/chunk.rs: Chunks, Chunk, valid_fourcc"]}
{"id": "C104", "title": "RIFF INFO lists survive writing and parsing", "statement": "Parsing the INFO list written for a tag gives the items with a value, in order.", "quantifier": "all tags", "why_tests_cant": "all strings", "anchors": ["lofty/src/iff/wav/tag/write.rs: create_riff_info", "lofty/src/iff/wav/tag/read.rs: parse_riff_info"]}
{"id": "C105", "title": "Saving a RIFF INFO list changes only that list", "statement": "Saving replaces the INFO list (or adds it at the end), keeps all other chunks and what follows the RIFF chunk, corrects the size field, and the file then reads as the tag.", "quantifier": "every well-formed WAV file, every tag", "why_tests_cant": "unbounded files", "anchors": ["lofty/src/iff/wav/tag/write.rs: write_riff_info, find_info_list, create_riff_info", "lofty/src/iff/wav/read.rs: read_from"]}
{"id": "C106", "title": "Saving an ID3v2 chunk changes only that chunk", "statement": "Saving an ID3v2 tag in a WAV or AIFF file gives a well-formed file with all other chunks as they were and one ID3v2 chunk with the tag; removing removes it.", "quantifier": "every well-formed file, every tag", "why_tests_cant": "unbounded files; needs a comparison of whole files", "anchors": ["lofty/src/id3/v2/write/chunk_file.rs: write_to_chunk_file, find_existing_id3v2_tag"]}
{"id": "C107", "title": "AIFF text chunks survive writing and reading", "statement": "Reading the text chunks written for a tag gives the tag.", "quantifier": "all tags", "why_tests_cant": "all strings and lists of comments", "anchors": ["lofty/src/iff/aiff/tag/mod.rs: create_text_chunks", "lofty/src/iff/aiff/read.rs: read_from"]}
{"id": "C108", "title": "Saving AIFF text chunks changes only them", "statement": "Saving replaces all text chunks, keeps all other chunks in order, corrects the size field, and the file then reads as the tag.", "quantifier": "every well-formed AIFF or AIFC file with a COMM chunk, every tag", "why_tests_cant": "unbounded files", "anchors": ["lofty/src/iff/aiff/tag/mod.rs: write_to_inner"]}
{"id": "C109", "title": "An interrupted save of a WAV or AIFF file does not lose data", "statement": "If the process stops while saving, the audio data is still in the file.", "quantifier": "every file and every moment", "why_tests_cant": "crash points are not reachable by tests", "anchors": ["lofty/src/iff/wav/tag/write.rs: write_riff_info", "lofty/src/iff/aiff/tag/mod.rs: write_to_inner", "lofty/src/id3/v2/write/chunk_file.rs: write_to_chunk_file"]}
{"id": "C110", "title": "Properties of WAV files", "statement": "For PCM and float files the format, rate, depth and channels are those of the format chunk, the duration is that of the samples in the data chunk to the nearest millisecond, and the bit rates are to the nearest kbit/s.", "quantifier": "all format chunks and files", "why_tests_cant": "all field values", "anchors": ["lofty/src/iff/wav/properties.rs: read_properties", "lofty/src/iff/wav/read.rs: read_from"]}
{"id": "C111", "title": "Properties of AIFF files", "statement": "Channels, sample size and sample rate are those of the COMM chunk and the duration is the number of frames divided by the rate.", "quantifier": "all COMM chunks", "why_tests_cant": "all field values; floating point", "anchors": ["lofty/src/iff/aiff/properties.rs: read_properties", "lofty/src/util/math.rs: F80"]}
{"id": "C112", "title": "Reading WAV and AIFF files never panics", "statement": "No file content makes reading a WAV or AIFF file panic.", "quantifier": "every byte sequence, all options", "why_tests_cant": "all inputs", "anchors": ["lofty/src/iff/wav/read.rs: read_from", "lofty/src/iff/wav/properties.rs", "lofty/src/iff/aiff/read.rs: read_from", "lofty/src/iff/aiff/properties.rs", "lofty/src/iff/chunk.rs"]}
{"id": "C113", "title": "Items of RIFF INFO lists", "statement": "insert replaces the item with that key and keeps all others, get then gives the value, remove takes it out; invalid keys change nothing.", "quantifier": "all lists, keys and values", "why_tests_cant": "all keys", "anchors": ["lofty/src/iff/wav/tag/mod.rs: RiffInfoList::get, insert, remove"]}
{"id": "C114", "title": "iTunes metadata lists survive writing and reading", "statement": "A list of items written as an ilst atom and parsed again is the same list.", "quantifier": "all lists of items", "why_tests_cant": "all item names, value types, and values", "anchors": ["lofty/src/mp4/ilst/write.rs: build_ilst, write_atom_data", "lofty/src/mp4/ilst/read.rs: parse_ilst"]}
{"id": "C115", "title": "Numbers in iTunes metadata items", "statement": "A signed or unsigned value of one to four bytes is read as the big-endian (two's complement) number it stores.", "quantifier": "all numbers of all sizes", "why_tests_cant": "all values", "anchors": ["lofty/src/mp4/ilst/read.rs: parse_uint, parse_int"]}
{"id": "C116", "title": "Saving a tag to an MP4 file that has one", "statement": "The new list takes the place of the old one and of the free space around it, sizes of the enclosing atoms are right, other atoms keep their content, and the saved file reads as the tag.", "quantifier": "every well-formed file with a tag, every list, every padding", "why_tests_cant": "unbounded trees of atoms; all sizes of free space", "anchors": ["lofty/src/mp4/ilst/write.rs: write_to, save_to_existing, pad_atom", "lofty/src/mp4/write.rs: AtomWriter"]}
{"id": "C117", "title": "Chunk offsets stay right when an MP4 tag changes size", "statement": "After saving, every chunk offset points to the same media data as before.", "quantifier": "every well-formed file, every list", "why_tests_cant": "all offset tables", "anchors": ["lofty/src/mp4/ilst/write.rs: update_offsets", "lofty/src/mp4/write.rs: find_all_children"]}
{"id": "C118", "title": "Saving a tag to an MP4 file that has none", "statement": "A new udta or meta atom is added, everything else stays in order, the sizes of the enclosing atoms are right, the file reads as the tag and media data is still found.", "quantifier": "every well-formed file without udta or without meta, every list", "why_tests_cant": "unbounded files", "anchors": ["lofty/src/mp4/ilst/write.rs: write_to, create_udta, create_meta"]}
{"id": "C119", "title": "Removing the tag of an MP4 file", "statement": "Removing the tag takes out exactly its list and moves the chunk offsets; the file then reads as one without tag.", "quantifier": "every well-formed file with a tag", "why_tests_cant": "unbounded files", "anchors": ["lofty/src/mp4/ilst/write.rs: write_to, save_to_existing"]}
{"id": "C120", "title": "The atoms of an MP4 file are found", "statement": "The writer sees every atom of a file with its position, size and children, whichever way its size is stored.", "quantifier": "all trees of atoms", "why_tests_cant": "unbounded trees", "anchors": ["lofty/src/mp4/write.rs: AtomWriter, ContextualAtom::read", "lofty/src/mp4/atom_info.rs: AtomInfo::read", "lofty/src/mp4/read/mod.rs: skip_atom"]}
{"id": "C121", "title": "A crash while saving an MP4 file does not lose it", "statement": "If the process stops while saving, the media data is still in the file.", "quantifier": "every file, every list, every moment", "why_tests_cant": "crash points are not reachable by tests", "anchors": ["lofty/src/mp4/write.rs: AtomWriter::save_to"]}
{"id": "C122", "title": "Saving to an MP4 file whose meta atom has no list", "statement": "The other atoms of the meta atom are kept.", "quantifier": "every file with a meta atom without ilst", "why_tests_cant": "all files", "anchors": ["lofty/src/mp4/ilst/write.rs: save_to_existing", "lofty/src/mp4/read/mod.rs: atom_tree"]}
{"id": "C123", "title": "Items that are not understood do not hide others", "statement": "An item with a value of an unknown type set is skipped and the items after it are read.", "quantifier": "all items of unknown type set, all lists after it", "why_tests_cant": "all sizes", "anchors": ["lofty/src/mp4/ilst/read.rs: parse_data_inner"]}
{"id": "C124", "title": "The tag of a track is not the tag of the file", "statement": "Metadata inside a track is not reported as the tag of the file.", "quantifier": "all files", "why_tests_cant": "layouts", "anchors": ["lofty/src/mp4/moov.rs: Moov::parse", "lofty/src/mp4/read/mod.rs: find_child_atom"]}
{"id": "C125", "title": "Removing and replacing an MP4 item leaves the others alone", "statement": "remove returns all items with the name and leaves the others; replace_atom leaves exactly the new item with its name. What other accessors return does not change.", "quantifier": "every list, every name, every item", "why_tests_cant": "lists of any length with repeated names", "anchors": ["lofty/src/mp4/ilst/mod.rs: remove, replace_atom, get"]}
{"id": "C126", "title": "MP4 accessors return what was set", "statement": "After setting a text field, a number, a total or a date the getter returns it; after removing it the getter returns nothing; the other half of a number pair stays.", "quantifier": "every list, every value", "why_tests_cant": "all 2^32 numbers, all lists", "anchors": ["lofty/src/mp4/ilst/mod.rs: impl Accessor for Ilst, extract_number"]}
{"id": "C127", "title": "MP4 flags", "statement": "set_flag(true) makes is_flag true and leaves one item; set_flag(false) removes it.", "quantifier": "every list, every flag", "why_tests_cant": "repeated items", "anchors": ["lofty/src/mp4/ilst/mod.rs: set_flag, get_flag, is_* accessors"]}
{"id": "C128", "title": "MP4 advisory rating", "statement": "The rating is the first value of the first rating item that denotes a rating; what was set is returned.", "quantifier": "every list, every rating", "why_tests_cant": "values of any type", "anchors": ["lofty/src/mp4/ilst/mod.rs: advisory_rating, set_advisory_rating", "lofty/src/mp4/ilst/advisory_rating.rs: TryFrom<u8>"]}
{"id": "C129", "title": "Inserting adds values", "statement": "insert appends the values to those of the first item of that name and changes no other item; insert_picture adds a picture at the end.", "quantifier": "every list, every item", "why_tests_cant": "all lists", "anchors": ["lofty/src/mp4/ilst/mod.rs: insert, insert_picture"]}
{"id": "C130", "title": "Removing all pictures from an MP4 tag", "statement": "After remove_pictures there are no pictures and everything else is there.", "quantifier": "every list", "why_tests_cant": "items with mixed values", "anchors": ["lofty/src/mp4/ilst/mod.rs: remove_pictures"]}
{"id": "C131", "title": "A generic tag from an MP4 tag", "statement": "Every text with a known name, every cover, the number pairs and the rating are in the generic tag, in order; the remainder contains exactly what was not taken.", "quantifier": "every list", "why_tests_cant": "all lists", "anchors": ["lofty/src/mp4/ilst/mod.rs: impl SplitTag for Ilst, From<Ilst> for Tag"]}
{"id": "C132", "title": "An MP4 tag from a generic tag", "statement": "Every text item with a name in MP4 is stored under it, in order, pictures in one item, numbers as pairs, the rating as a number; the remainder stays.", "quantifier": "every generic tag, every remainder", "why_tests_cant": "all tags", "anchors": ["lofty/src/mp4/ilst/mod.rs: impl MergeTag for SplitTagRemainder, From<Tag> for Ilst"]}
{"id": "C133", "title": "MP4 tag to generic tag and back", "statement": "With the option to keep format specific items the texts, covers, unknown items, other values, number pairs and the rating survive.", "quantifier": "every list", "why_tests_cant": "all lists", "anchors": ["lofty/src/mp4/ilst/mod.rs: impl SplitTag for Ilst, impl MergeTag for SplitTagRemainder", "lofty/src/config/global_options.rs: preserve_format_specific_items"]}
{"id": "C134", "title": "Generic tag to MP4 tag and back", "statement": "The texts of all supported keys, the pictures, numbers and the rating come back.", "quantifier": "every generic tag", "why_tests_cant": "all tags", "anchors": ["lofty/src/mp4/ilst/mod.rs: impl SplitTag for Ilst, impl MergeTag for SplitTagRemainder", "lofty/src/tag/item.rs: ILST_MAP"]}
{"id": "C135", "title": "ID3v2 frame ids", "statement": "A frame id is accepted exactly if it is 3 or 4 characters out of A-Z and 0-9. Every known ID3v2.2 and ID3v2.3 id is translated to exactly one valid ID3v2.4 id.", "quantifier": "every text", "why_tests_cant": "all texts; the tables", "anchors": ["lofty/src/id3/v2/frame/header/mod.rs: FrameId::new, verify_id", "lofty/src/id3/v2/util/upgrade.rs: upgrade_v2, upgrade_v3"]}
{"id": "C136", "title": "ID3v2 frame flags", "statement": "The flag bytes that are written are the sum of the bits given by the ID3v2.3 and ID3v2.4 documents, one for each flag; reading recovers each flag, so that unknown bits are ignored.", "quantifier": "every combination of flags, every two bytes", "why_tests_cant": "all flag bytes", "anchors": ["lofty/src/id3/v2/frame/mod.rs: FrameFlags::parse_id3v24, parse_id3v23, as_id3v24_bytes, as_id3v23_bytes"]}
{"id": "C137", "title": "ID3v2 frame headers", "statement": "A frame header is 10 bytes, and reading it yields the id, the size and the flags it was made from (sizes in ID3v2.4 as 4 times 7 bits); if writing fails the size does not fit.", "quantifier": "every id, size and flags, both versions", "why_tests_cant": "all sizes", "anchors": ["lofty/src/id3/v2/write/frame.rs: write_frame_header", "lofty/src/id3/v2/frame/header/parse.rs: parse_header"]}
{"id": "C138", "title": "ID3v2 frame contents", "statement": "Writing the content of a frame and reading it yields the frame: comments, lyrics, texts, user texts, links, pictures, ratings, people lists, volume adjustments, file ids, ownership, events, private data, dates and unknown frames, in each encoding.", "quantifier": "every frame of these kinds with contents that can be stored, both versions, every parsing mode", "why_tests_cant": "all texts, all numbers, every kind", "anchors": ["lofty/src/id3/v2/items/*.rs: parse, as_bytes", "lofty/src/id3/v2/frame/content.rs: parse_content"]}
{"id": "C139", "title": "An ID3v2.4 tag is read back as it was", "statement": "Writing frames (with chapters in chapters), then reading them yields the same frames in the same order and the same flags; the reader stops at the end of the tag. Writing can only fail because something is too large.", "quantifier": "every list of frames without duplicates, every padding, footer, flags; every parsing mode; whatever follows", "why_tests_cant": "lists of any length, nesting of any depth", "anchors": ["lofty/src/id3/v2/write/mod.rs: create_tag, create_tag_header, calculate_crc", "lofty/src/id3/v2/write/frame.rs: create_items", "lofty/src/id3/v2/read.rs: parse_id3v2, read_all_frames_into_list", "lofty/src/id3/v2/frame/read.rs", "lofty/src/id3/v2/items/chapter_frame.rs, items/table_of_contents_frame.rs"]}
{"id": "C140", "title": "An ID3v2.3 tag is read back as far as that version allows", "statement": "The same in ID3v2.3. Frames that version has come back with texts in UTF-16 unless they were Latin-1. Frames new in ID3v2.4 are dropped; a recording date comes back with year, day and month, hour and minute; an original release date with its year; all people of both lists in one list; genres with the same names.", "quantifier": "every list of frames with at most one recording date, years from 1000, and pairs of people of which the last has a value", "why_tests_cant": "lists of any length, nesting of any depth, all dates", "anchors": ["lofty/src/id3/v2/write/frame.rs: create_items_v3", "lofty/src/id3/v2/read.rs: parse_id3v2, construct_tdrc_from_v3", "lofty/src/id3/v2/tag.rs: GenresIter"]}
{"id": "C141", "title": "An ID3v2.3 tag loses nothing else", "statement": "Dates with any year, the roles of people, all pairs of people, genres with parentheses, and dates in ID3v2.3 tags of other programs are read as they were stored.", "quantifier": "every date, every list of people, every genre", "why_tests_cant": "all values", "anchors": ["lofty/src/id3/v2/write/frame.rs: create_items_v3", "lofty/src/id3/v2/read.rs: construct_tdrc_from_v3", "lofty/src/id3/v2/tag.rs: GenresIter"]}
{"id": "C142", "title": "An ID3v2 tag has no two frames with the same identity", "statement": "Whatever is in the file, no two frames of a tag that was read (or of one of its chapters) have the same identity as the ID3v2 document defines it (one frame per name, or per name with language, description, owner and the like). Inserting a frame replaces the one with the same identity, returns it and keeps all others. Of two such frames in a file the later one is kept, unless it is empty and the earlier one is not.", "quantifier": "every file, every frame, every list", "why_tests_cant": "all files, lists of any length", "anchors": ["lofty/src/id3/v2/tag.rs: insert, remove", "lofty/src/id3/v2/read.rs: read_all_frames_into_list", "lofty/src/id3/v2/frame/mod.rs: Frame::eq, is_empty"]}
{"id": "C143", "title": "Reading an ID3v2 tag ends without a panic", "statement": "Reading a tag with any content, options and mode returns a tag or an error; the reader is right behind the tag afterwards. The memory and stack needed for it are bounded independently of the content.", "quantifier": "every content, every option", "why_tests_cant": "all byte strings, nested frames", "anchors": ["lofty/src/id3/v2/read.rs: parse_id3v2, read_all_frames_into_list", "lofty/src/id3/v2/frame/read.rs", "lofty/src/id3/v2/frame/content.rs", "lofty/src/id3/v2/items/*.rs: parse"]}
{"id": "C144", "title": "Flags of an ID3v2 tag", "statement": "A tag that is written with any of its flags (checksum, restrictions, unsynchronisation) is read back with its frames.", "quantifier": "every flag, every list of frames", "why_tests_cant": "all flags", "anchors": ["lofty/src/id3/v2/write/mod.rs: create_tag, create_tag_header", "lofty/src/id3/v2/header.rs"]}
{"id": "C145", "title": "Flags of an ID3v2 frame", "statement": "A frame that is written with any of its flags (compression, encryption, unsynchronisation, data length) is read back with the same content.", "quantifier": "every flag, every content", "why_tests_cant": "all flags", "anchors": ["lofty/src/id3/v2/write/frame.rs: write_frame, write_encrypted", "lofty/src/id3/v2/frame/read.rs"]}
{"id": "C146", "title": "A damaged ID3v2 frame does not affect the others", "statement": "When the reading is not strict, a frame that cannot be read is skipped and all other frames are read.", "quantifier": "every damage, every tag", "why_tests_cant": "all tags", "anchors": ["lofty/src/id3/v2/read.rs: read_all_frames_into_list", "lofty/src/id3/v2/frame/read.rs", "lofty/src/id3/v2/frame/header/parse.rs"]}
{"id": "C147", "title": "Frames follow one another by their sizes", "statement": "After a frame was read, the next one is looked for right behind it, as given by the size in its header.", "quantifier": "every frame in every tag, every mode", "why_tests_cant": "all contents", "anchors": ["lofty/src/id3/v2/frame/read.rs: ParsedFrame::read", "lofty/src/id3/v2/frame/content.rs", "lofty/src/id3/v2/items/*.rs: parse"]}
{"id": "C148", "title": "Saving an ID3v2 tag replaces the old one and keeps the audio", "statement": "Saving to an MPEG or AAC file removes the old tag with what is before it, puts the new tag at the start and keeps every byte that follows the old tag; with no old tag every byte of the file is kept. Saving the same frames again changes nothing.", "quantifier": "every old tag without extended header, every new tag, every audio", "why_tests_cant": "all files", "anchors": ["lofty/src/id3/v2/write/mod.rs: write_id3v2", "lofty/src/id3/mod.rs: find_id3v2"]}
{"id": "C149", "title": "Saving an ID3v2 tag never loses audio", "statement": "In every file, whatever is in it and whenever the program is interrupted, the audio is kept; afterwards there is one tag.", "quantifier": "every file, every interruption", "why_tests_cant": "all files, all crashes", "anchors": ["lofty/src/id3/v2/write/mod.rs: write_id3v2", "lofty/src/id3/mod.rs: find_id3v2"]}
{"id": "C150", "title": "An ID3v2 tag that was read can be saved", "statement": "Saving a tag that was read does not fail.", "quantifier": "every file", "why_tests_cant": "all files", "anchors": ["lofty/src/id3/v2/write/frame.rs: verify_frame, create_items, create_items_v3", "lofty/src/id3/v2/items/language_frame.rs", "lofty/src/id3/v2/items/ownership_frame.rs, items/event_timing_codes_frame.rs"]}
{"id": "C151", "title": "Old and foreign forms of MP4 items are understood", "statement": "A flag item is true if and only if its value has a byte that is not 0, for every type and length; a gnre item with numbers n is read as the genre item with the n-th names of the ID3v1 list, counting from 1, when implicit conversions are on; a freeform item whose names do not fit in it is not read.", "quantifier": "every flag, every value, all genre numbers, all names and sizes", "why_tests_cant": "all values and lengths; off-by-one in the last genre", "anchors": ["lofty/src/mp4/ilst/read.rs: parse_ilst", "lofty/src/mp4/atom_info.rs: parse_freeform, freeform_chunk"]}
{"id": "C152", "title": "The tags of several udta atoms are read as one", "statement": "If moov has two udta atoms with tags, the tag read has the items of the first, with the items of the second added: values under a name that is already there come after those, other items at the end.", "quantifier": "every file with two udta atoms, all lists of storable items", "why_tests_cant": "all trees around them", "anchors": ["lofty/src/mp4/moov.rs: Moov::parse, ilst_from_udta", "lofty/src/mp4/ilst/mod.rs: Ilst::insert", "lofty/src/mp4/atom_info.rs"]}
{"id": "C153", "title": "Setting a text of an ID3v2 tag sets that text only", "statement": "After set_title, set_artist, set_album or set_genre with a text, the tag has exactly one frame of that name, with that text in UTF-8; the getter returns the text; all other frames, the version and the flags are as before. After the remove function the getter returns nothing and the other frames are those there were. In a 2.4 tag the values of a frame are shown with slashes between them.", "quantifier": "every tag, every text", "why_tests_cant": "all tags, including those whose frame of that name is of another kind", "anchors": ["lofty/src/id3/v2/tag.rs: impl_accessor, remove_separators_from_frame_text", "lofty/src/id3/v2/frame/list.rs"]}
{"id": "C154", "title": "Track and disk numbers of an ID3v2 tag are independent of their totals", "statement": "After set_track the track is that number and the total is what it was; after set_track_total the total is that number and the track is what it was; removing one leaves the other. The same for disks. Other frames are unchanged.", "quantifier": "every tag, all numbers up to 2^32-1", "why_tests_cant": "all tags; tags without a number", "anchors": ["lofty/src/id3/v2/tag.rs: split_num_pair, insert_number_pair, set_track, remove_track, set_track_total, remove_track_total, set_disk, set_disk_total", "lofty/src/id3/v2/util/pairs.rs: format_number_pair"]}
{"id": "C155", "title": "The date that is set in an ID3v2 tag is the date it has", "statement": "After set_date(d), date() is d. A date that was read is returned by date(). After remove_date there is no date and the other frames are those there were. A date that is set is saved in the same form as one that was read.", "quantifier": "every tag, every date", "why_tests_cant": "all dates and tags", "anchors": ["lofty/src/id3/v2/tag.rs: date, set_date, remove_date"]}
{"id": "C156", "title": "The comment of an ID3v2 tag is the comment without a description", "statement": "After set_comment the comment is the given text; exactly one comment has no description, it has the language and the encoding of the first such comment of before, and all other frames are unchanged and in order. After remove_comment there is no comment without a description, and all other frames are unchanged.", "quantifier": "every tag, every text", "why_tests_cant": "tags with any number of comments", "anchors": ["lofty/src/id3/v2/tag.rs: comment, set_comment, remove_comment, filter_comment_frame_by_description"]}
{"id": "C157", "title": "The genre that is set in an ID3v2 tag is the genre it has", "statement": "After set_genre(s), the genres of the tag are s alone, and genre() is s.", "quantifier": "every tag, every text", "why_tests_cant": "short texts that are numbers or abbreviations", "anchors": ["lofty/src/id3/v2/tag.rs: genres, genre, set_genre, parse_genre, GenresIter"]}
{"id": "C158", "title": "Converting an ID3v2 tag to a Tag and back loses nothing", "statement": "If an ID3v2 tag is converted to a Tag and back, with format specific items preserved, the frames are the same, in some order, and the version and the flags of the tag are the same. The same frames are written when the Tag is saved as it is.", "quantifier": "every tag whose frames are pairwise different and of the forms the library itself makes (or kept aside, or pictures); every order in which a hash set may be iterated", "why_tests_cant": "all combinations of frames; the order of a hash set", "anchors": ["lofty/src/id3/v2/tag.rs: handle_tag_split, split_tag, merge_tag, From<Id3v2Tag> for Tag, From<Tag> for Id3v2Tag", "lofty/src/id3/v2/tag/conversion.rs: from_tag, tag_frames"]}
{"id": "C159", "title": "The items of a Tag survive ID3v2", "statement": "If a Tag is converted to an ID3v2 tag, the frames are those the items belong in, and if it is converted back, the items are the same, in some order; the values of one key keep their order.", "quantifier": "every list of groups of items with pairwise different frames; all texts without NUL; every iteration order", "why_tests_cant": "all combinations of items", "anchors": ["lofty/src/id3/v2/tag/conversion.rs: from_tag, item_to_frame", "lofty/src/id3/v2/tag.rs: handle_tag_split"]}
{"id": "C160", "title": "A Tag for ID3v2 accepts the keys that ID3v2 can store", "statement": "A key can be inserted in a Tag of type ID3v2 if and only if an item with that key and some text gives a frame.", "quantifier": "every key, every tag", "why_tests_cant": "all keys; the tables are in different files", "anchors": ["lofty/src/tag/item.rs: map_key, re_map", "lofty/src/tag/mod.rs: insert", "lofty/src/id3/v2/tag/conversion.rs: item_to_frame"]}
{"id": "C161", "title": "Saving a Tag as ID3v2 writes what converting it gives", "statement": "The frames that are written when a Tag is saved to ID3v2 are the frames of the ID3v2 tag it is converted to, in some order.", "quantifier": "every Tag, every iteration order", "why_tests_cant": "two code paths, for owned and for borrowed items", "anchors": ["lofty/src/id3/v2/tag/conversion.rs: from_tag, take_item_text_and_description, tag_frames", "lofty/src/id3/v2/tag.rs: merge_tag"]}
{"id": "C162", "title": "A Tag can be saved as ID3v2", "statement": "Every frame that is made from the items of a Tag passes the check of frames before they are written.", "quantifier": "every list of items", "why_tests_cant": "all keys and values", "anchors": ["lofty/src/id3/v2/tag/conversion.rs: from_tag, item_to_frame", "lofty/src/id3/v2/write/frame.rs: verify_frame, create_items, create_items_v3"]}
{"id": "C163", "title": "ID3v2.2 tags are read as the frames they stand for", "statement": "A tag of ID3v2.2 frames (names of three characters, sizes of three bytes, texts in ISO-8859-1 or UTF-16, pictures with a format of three characters), unsynchronised or not, is read as the same frames under the names ID3v2.4 has for them; names without a successor are kept. An ID3v2.3 tag reads the same whether it is unsynchronised or not.", "quantifier": "every tag of distinct frames, every padding", "why_tests_cant": "all names, sizes and contents", "anchors": ["lofty/src/id3/v2/frame/header/parse.rs: parse_v2_header", "lofty/src/id3/v2/util/upgrade.rs: V2_KEYS", "lofty/src/id3/v2/frame/read.rs: ParsedFrame::read", "lofty/src/id3/v2/items/attached_picture_frame.rs: parse", "lofty/src/id3/v2/read.rs: parse_id3v2"]}
{"id": "C164", "title": "An MPEG frame header is decoded as the standard says", "statement": "Four bytes that begin with the frame sync are read as a header if and only if version, layer, bit rate and sample rate are not reserved (nor free format); then all fields have the values of the standard, the mode extension only in joint stereo.", "quantifier": "every 32 bit word with a frame sync", "why_tests_cant": "there are two million words, the tables are indexed in four ways", "anchors": ["lofty/src/mpeg/header.rs: Header::read", "lofty/src/mpeg/constants.rs"]}
{"id": "C165", "title": "The length of an MPEG frame is that of the standard", "statement": "The length computed from the header is the number of bytes of the frame.", "quantifier": "every valid header", "why_tests_cant": "all combinations of layer, version, bit rate, sample rate and padding", "anchors": ["lofty/src/mpeg/header.rs: Header::read", "lofty/src/mpeg/constants.rs: PADDING_SIZES"]}
{"id": "C166", "title": "The search for a frame sync finds the first one", "statement": "search_for_frame_sync returns the offset of the first byte 0xFF that is followed by a byte of at least 0xE0, or nothing if there is none.", "quantifier": "all bytes", "why_tests_cant": "syncs at the start, at the end, after 0xFF", "anchors": ["lofty/src/mpeg/header.rs: search_for_frame_sync, verify_frame_sync"]}
{"id": "C167", "title": "The first frame of an MPEG stream is found", "statement": "In a file with zeros, ID3v2 tags, junk and a stream of frames, the first frame of the stream is found, and its offset.", "quantifier": "all tags, all junk without a frame sync, all streams of frames of one kind", "why_tests_cant": "all junk, all frame lengths", "anchors": ["lofty/src/mpeg/read.rs: read_from, find_next_frame", "lofty/src/mpeg/header.rs: cmp_header, HEADER_MASK"]}
{"id": "C168", "title": "The duration of an MPEG file with a VBR header is that of the frames counted in it", "statement": "If the first frame has a Xing, Info or VBRI header with the number of frames and bytes, the duration is that number times the samples in a frame over the sample rate, in milliseconds, rounded, and the bit rates are the bytes of the file and of the audio over that time.", "quantifier": "every file with such a header, whatever the other tags and frames", "why_tests_cant": "all sample rates and layers, all counts", "anchors": ["lofty/src/mpeg/header.rs: VbrHeader::read", "lofty/src/mpeg/properties.rs: read_properties", "lofty/src/util/math.rs: div_round"]}
{"id": "C169", "title": "The duration of an MPEG file without a VBR header is that of its frames", "statement": "If all frames have one bit rate, the duration is the length of the frames over the bit rate, and differs from the time they play by at most one slot for each frame and half a millisecond.", "quantifier": "every file with two frames or more and 32 bytes behind the place of a Xing header, whose last frame contains nothing that looks like a header", "why_tests_cant": "the last frame is searched for in windows of 1024 bytes from the end", "anchors": ["lofty/src/mpeg/properties.rs: read_properties", "lofty/src/mpeg/header.rs: rev_search_for_frame_header, Header::cmp"]}
{"id": "C170", "title": "Reading an MPEG file ends and does not panic", "statement": "read_from returns a file or an error.", "quantifier": "all bytes, all options, files below 2^59 bytes; a decompressor that does not make data longer", "why_tests_cant": "arithmetic on untrusted sizes; the loops over tags, frames and windows", "anchors": ["lofty/src/mpeg/read.rs: read_from, find_next_frame", "lofty/src/mpeg/properties.rs: read_properties", "lofty/src/mpeg/header.rs: rev_search_for_frame_header"]}
{"id": "C171", "title": "All tags of an MPEG file are read", "statement": "The ID3v2 tags before the audio, merged, the APE tag and the ID3v1 tag behind it are in the file that is read, whether the properties are read or not.", "quantifier": "every file of such parts", "why_tests_cant": "all combinations of tags", "anchors": ["lofty/src/mpeg/read.rs: read_from", "lofty/src/ape/tag/read.rs: read_ape_tag", "lofty/src/id3/mod.rs: find_id3v1, find_lyrics3v2"]}
{"id": "C172", "title": "The properties of an MPEG file do not depend on whether its tags are read", "statement": "With read_tags off the properties are the same as with read_tags on, and there are no tags.", "quantifier": "every file of such parts", "why_tests_cant": "two paths through the reader", "anchors": ["lofty/src/mpeg/read.rs: read_from", "lofty/src/ape/tag/read.rs: read_ape_tag"]}
{"id": "C173", "title": "The general properties of an MPEG file are its own", "statement": "The duration, bit rates, sample rate and channels are those of the MPEG properties; the channel mask is the front centre for mono, left and right for stereo, and unknown for two independent channels, and the channel count agrees with it.", "quantifier": "every file", "why_tests_cant": "all channel modes", "anchors": ["lofty/src/mpeg/properties.rs: From<MpegProperties> for FileProperties, read_properties"]}
{"id": "C174", "title": "The checksum of an ID3v2.4 tag is the CRC-32 of its frames and padding", "statement": "With the CRC flag, the extended header has the CRC-32 (ISO 3309) of what follows it up to the footer, as five bytes of seven bits.", "quantifier": "every tag, flags, padding and restrictions", "why_tests_cant": "all contents", "anchors": ["lofty/src/id3/v2/write/mod.rs: create_tag, calculate_crc"]}
{"id": "C175", "title": "Volume adjustments are read back whatever their peak", "statement": "An RVA2 frame can be written and read back with its channels and their peak volumes of up to 32 bytes.", "quantifier": "every list of channels", "why_tests_cant": "all peaks and bit counts", "anchors": ["lofty/src/id3/v2/items/relative_volume_adjustment_frame.rs: parse, as_bytes"]}
{"id": "C176", "title": "An ADTS header is read as the standard defines it", "statement": "The seven bytes of an ADTS header give the MPEG version, the object type, the sample rate, the number of channels and their speakers, the original and copyright bits and the length of the frame as ISO/IEC 13818-7 says. The reserved sample rate index 15, and headers of other layers, are refused.", "quantifier": "every header, valid or not", "why_tests_cant": "all values of all fields", "anchors": ["lofty/src/aac/header.rs: ADTSHeader::read", "lofty/src/properties/channel_mask.rs: ChannelMask::from_mp4_channels"]}
{"id": "C177", "title": "The audio of an AAC file is found after zeros, ID3v2 tags and junk", "statement": "A file of zeros, ID3v2 tags, bytes without a sync and frames of one kind has the properties of its first frame.", "quantifier": "every number of zeros, tags, junk and frames", "why_tests_cant": "files beyond the samples", "anchors": ["lofty/src/aac/read.rs: read_from, find_next_frame", "lofty/src/mpeg/header.rs: search_for_frame_sync, cmp_header"]}
{"id": "C178", "title": "The duration of an AAC file is that of its frames", "statement": "The duration is the number of frames times 1024 samples over the sample rate, and the bit rate is that of the frames.", "quantifier": "every file of frames", "why_tests_cant": "all lengths and numbers of frames", "anchors": ["lofty/src/aac/read.rs: read_from", "lofty/src/aac/properties.rs: read_properties", "lofty/src/aac/header.rs: ADTSHeader::read"]}
{"id": "C179", "title": "Reading an AAC file ends and does not panic", "statement": "Reading any bytes gives a file or an error.", "quantifier": "every sequence of bytes below 4 GiB, every option", "why_tests_cant": "all files, in particular damaged ones", "anchors": ["lofty/src/aac/read.rs: read_from, find_next_frame"]}
{"id": "C180", "title": "The tags of an AAC file are those in it, and do not change its properties", "statement": "All ID3v2 tags before the audio are merged, first come first, an ID3v1 tag at the end is read, and the properties are the same when tags are not read.", "quantifier": "every number of tags, every content", "why_tests_cant": "all tags", "anchors": ["lofty/src/aac/read.rs: read_from"]}
{"id": "C181", "title": "A WavPack file is described by its first block with audio", "statement": "Version, sample rate, bit depth (bytes per sample less the shift), losslessness, channels and speakers are those of the first block that holds samples, whatever blocks without samples come before it and whatever comes after. Audio of more than two channels, which is in several blocks, has the sum of their channels.", "quantifier": "every sequence of blocks, all values of their fields, every content", "why_tests_cant": "all flag words and blocks", "anchors": ["lofty/src/wavpack/properties.rs: read_properties, parse_wv_header"]}
{"id": "C182", "title": "Sample rates outside the table and channel layouts come from the sub-blocks", "statement": "A sub-block with a sample rate gives the rate, a DSD sub-block multiplies it, a channel sub-block gives the number of channels and the speakers; other sub-blocks, of any size, are skipped.", "quantifier": "every sequence of sub-blocks, all rates, sizes and contents", "why_tests_cant": "sub-blocks of odd, even and large sizes in every order", "anchors": ["lofty/src/wavpack/properties.rs: get_extended_meta_info"]}
{"id": "C183", "title": "The duration and bit rates of a WavPack file are the nearest whole numbers", "statement": "The duration is the number of samples over the sample rate, in milliseconds, rounded to the nearest; the bit rates are those of the file and of the file without its tags, rounded; a file with an unknown number of samples has no duration.", "quantifier": "all numbers of samples, sample rates and file sizes", "why_tests_cant": "f64 arithmetic on all values", "anchors": ["lofty/src/wavpack/properties.rs: read_properties, parse_wv_header"]}
{"id": "C184", "title": "Reading a WavPack file does not panic", "statement": "Reading any bytes gives a file or an error.", "quantifier": "every sequence of bytes, every option", "why_tests_cant": "all files, in particular damaged ones", "anchors": ["lofty/src/wavpack/read.rs: read_from", "lofty/src/wavpack/properties.rs: read_properties, get_extended_meta_info"]}
{"id": "C185", "title": "The tags of a WavPack file are those at its end", "statement": "An ID3v1 tag in the last 128 bytes and an APE tag before it are read, for any content before them, and errors come only from the audio.", "quantifier": "every content, every tag, every option", "why_tests_cant": "all combinations of tags", "anchors": ["lofty/src/wavpack/read.rs: read_from"]}
{"id": "C186", "title": "A Musepack stream of version 8 is described by its packets", "statement": "The stream header, the gains and the encoder are those of their packets, whatever packets come between and in whatever order; the duration is the number of samples less the silence over the sample rate, rounded to the nearest millisecond; the bit rate is the content of the packets over the duration, rounded down. In strict mode a stream without header or without gains is an error.", "quantifier": "every sequence of packets with sizes of any number of bytes, all fields, every tag around the stream", "why_tests_cant": "sizes and orders of packets, all fields", "anchors": ["lofty/src/musepack/sv8/read.rs: read_from, PacketReader::next, PacketReader::read_size", "lofty/src/musepack/sv8/properties.rs: StreamHeader::read, ReplayGain::read, EncoderInfo::read, read"]}
{"id": "C187", "title": "A Musepack stream of version 7 is described by its header", "statement": "Channels, frames, stereo flags, highest band, profile, link, sample rate, level, gapless flag, length of the last frame, fast seeking, gains, peaks and encoder are the fields of the header; the duration is that of the samples that are heard; the bit rate is the stream's over the duration.", "quantifier": "all values of the header, every stream length", "why_tests_cant": "all headers; f64 and f32 arithmetic on all values", "anchors": ["lofty/src/musepack/sv7/properties.rs: read, Profile::from_u8, Link::from_u8"]}
{"id": "C188", "title": "A Musepack stream of version 4 to 6 is described by its header", "statement": "Mid/side stereo, version, highest band, number of frames (without the invalid last one before version 6), sample rate and channels are those of the header; the duration is that of the samples, rounded to the nearest millisecond; the bit rate is the stream's over the duration.", "quantifier": "all values of the header, every stream length", "why_tests_cant": "all headers; f64 arithmetic on all values", "anchors": ["lofty/src/musepack/sv4to6/properties.rs: read", "lofty/src/musepack/read.rs: read_from"]}
{"id": "C189", "title": "Reading a Musepack file does not panic", "statement": "Reading any bytes gives a file or an error.", "quantifier": "every sequence of bytes, every option", "why_tests_cant": "all files, in particular damaged ones", "anchors": ["lofty/src/musepack/read.rs: read_from", "lofty/src/musepack/sv8/read.rs: read_from", "lofty/src/musepack/sv7/properties.rs: read", "lofty/src/musepack/sv4to6/properties.rs: read"]}
{"id": "C190", "title": "The tags of a Musepack file are those before and behind the stream", "statement": "An ID3v2 tag at the start, an ID3v1 tag in the last 128 bytes and an APE tag before it are read, for any stream between them; errors come only from the audio; the version of the stream is reported; without reading tags, the properties are the same.", "quantifier": "every stream, every tag, every option", "why_tests_cant": "all combinations of tags and options", "anchors": ["lofty/src/musepack/read.rs: read_from"]}
{"id": "C191", "title": "The duration of an MP4 file is that of its first audio track", "statement": "Tracks without a sound handler are passed over, whatever they contain; the duration is the media header's number of units over its time scale, rounded to the nearest millisecond, or 0 without a time scale.", "quantifier": "every file made of atoms with an audio track whose sample description is inside, any atoms and tracks around it, both versions of the media header, every option", "why_tests_cant": "all shapes of atom trees and all numbers", "anchors": ["lofty/src/mp4/properties.rs: read_properties, find_audio_trak, Mdhd::parse", "lofty/src/mp4/moov.rs: Moov::parse"]}
{"id": "C192", "title": "MPEG-4 audio is described by its decoder configuration", "statement": "Codec, audio object type, sample rate and number of channels are those of the elementary stream descriptor: rates by index or written out, channels by configuration (or of the sample entry for configuration 0), extended object types.", "quantifier": "every descriptor, all object types, rates and channel configurations, any atoms behind", "why_tests_cant": "all configurations, descriptor sizes of one to four bytes", "anchors": ["lofty/src/mp4/properties.rs: mp4a_properties, Descriptor::read"]}
{"id": "C193", "title": "ALAC and FLAC in MP4 are described by their own headers", "statement": "Codec, sample rate, channels and bit depth are those of the ALAC configuration and of the FLAC stream information.", "quantifier": "all field values, any atoms behind", "why_tests_cant": "all values; sample entries with further atoms", "anchors": ["lofty/src/mp4/properties.rs: alac_properties, flac_properties"]}
{"id": "C194", "title": "Other sample entries give the numbers of the entry; protected ones are marked", "statement": "An entry of a kind that is not told apart gives sample rate and channels of the entry and no codec; the file counts as protected exactly if its entry is drms; an MPEG-4 entry behind it is found.", "quantifier": "every four-character kind, every entry content", "why_tests_cant": "all kinds and contents", "anchors": ["lofty/src/mp4/properties.rs: parse_stsd"]}
{"id": "C195", "title": "The bit rates of an MP4 file are sizes over durations", "statement": "The overall bit rate is the size of the file over the duration; the audio bit rate is that of the media data, or the average of the descriptor when every sample lasts one unit; strict mode requires media data.", "quantifier": "every file of C191", "why_tests_cant": "all sizes and durations", "anchors": ["lofty/src/mp4/properties.rs: read_properties, mdat_length"]}
{"id": "C196", "title": "Reading an MP4 file ends, without a panic", "statement": "Reading any bytes ends and gives a file or an error.", "quantifier": "every sequence of bytes, every option", "why_tests_cant": "all files, in particular damaged ones and very large ones", "anchors": ["lofty/src/mp4/read/mod.rs: read_from, skip_atom, find_child_atom", "lofty/src/mp4/atom_info.rs: AtomInfo::read", "lofty/src/mp4/moov.rs: Moov::find, Moov::parse", "lofty/src/mp4/properties.rs: read_properties"]}
{"id": "C197", "title": "The order of the atoms in a media does not change the properties", "statement": "Media header, handler and media information can come in any order.", "quantifier": "every permutation of the atoms in mdia", "why_tests_cant": "all orders", "anchors": ["lofty/src/mp4/properties.rs: find_audio_trak"]}
{"id": "C198", "title": "A file is recognised by how its format begins", "statement": "A reader whose next bytes begin like a file of a format (magic number; first Ogg page; frame sync) is guessed to be of that format, and a buffer is never taken for a format whose mark it does not bear.", "quantifier": "all fourteen beginnings with any contents around them; all buffers; any options and position", "why_tests_cant": "all sizes, keys and versions between the marks; all buffers without a mark", "anchors": ["lofty/src/file/file_type.rs: quick_type_guess, from_buffer_inner, from_buffer", "lofty/src/probe.rs: guess_inner"]}
{"id": "C199", "title": "A file is recognised behind an ID3v2 tag", "statement": "APE, FLAC, Musepack, MPEG and AAC files are recognised behind an ID3v2 tag of any size.", "quantifier": "every tag header and content, every beginning", "why_tests_cant": "all sizes, flags and contents", "anchors": ["lofty/src/probe.rs: guess_inner"]}
{"id": "C200", "title": "Behind other bytes the first frame sync decides", "statement": "Without any mark, a file is MPEG or AAC exactly if its first frame sync lies within the allowed number of bytes; the layer bits tell which.", "quantifier": "every content and every limit", "why_tests_cant": "all positions of the sync, near and beyond the limit", "anchors": ["lofty/src/probe.rs: check_mpeg_or_aac, guess_inner", "lofty/src/mpeg/header.rs: search_for_frame_sync"]}
{"id": "C201", "title": "Guessing does not move the reader and depends only on what follows", "statement": "Guessing never fails on a reader that does not, leaves it where it was, keeps a type that was set if nothing is recognised, and depends only on the bytes from the position on.", "quantifier": "every reader, position, registry and limit", "why_tests_cant": "all positions, all paths through the code", "anchors": ["lofty/src/probe.rs: guess_file_type, guess_inner"]}
{"id": "C202", "title": "What a reader accepts is recognised", "statement": "A file that the reader of a format accepts is guessed to be of that format.", "quantifier": "every accepted file", "why_tests_cant": "all files the readers tolerate", "anchors": ["lofty/src/probe.rs: guess_inner", "lofty/src/iff/wav/read.rs: verify_wav", "lofty/src/iff/aiff/read.rs: verify_aiff", "lofty/src/flac/read.rs: read_from", "lofty/src/mp4/read/mod.rs: verify_mp4"]}
{"id": "C203", "title": "File names are recognised by their extension", "statement": "An extension stands for the format that uses it, whatever its case; a path counts by what is behind the last dot of its last component; registered resolvers come first; the published list of extensions is the list of recognised ones.", "quantifier": "all extensions, paths and registries", "why_tests_cant": "all strings", "anchors": ["lofty/src/file/file_type.rs: EXTENSIONS, from_ext, from_path", "lofty/src/resolve.rs: FileResolver"]}
{"id": "C204", "title": "The supported tags are those documented; the primary tag can be written", "statement": "For each format and tag type, the support (none, read only, read and write) is that of the published table; the primary tag type of a format can be read and written; custom types ask their resolver and panic without one; a resolver is registered once.", "quantifier": "all formats, tag types and registries", "why_tests_cant": "every cell of the table, all registries", "anchors": ["lofty/src/file/file_type.rs: primary_tag_type, tag_support", "lofty/src/resolve.rs: lookup_resolver, register_custom_resolver", "lofty_attr/src/lofty_tag.rs: emit"]}
{"id": "C205", "title": "The limit for junk bytes applies to the recognition of files", "statement": "With a limit for junk bytes in the options, a file is recognised with that limit, by a probe and when it is read as a tagged file.", "quantifier": "every content and limit", "why_tests_cant": "all limits above and below the default", "anchors": ["lofty/src/probe.rs: guess_file_type", "lofty/src/file/tagged_file.rs: TaggedFile::read_from", "lofty/src/config/parse_options.rs: max_junk_bytes"]}
{"id": "C206", "title": "A tagged file holds at most one tag of each type that its format can read", "statement": "Inserting, removing, clearing, changing a tag in place and changing the file type behave like operations on a map from tag types to tags; inserting a tag of a type that cannot be read changes nothing; the invariant holds after any sequence of them.", "quantifier": "all collections, tags, file types, registries and histories", "why_tests_cant": "unbounded histories and collections", "anchors": ["lofty/src/file/tagged_file.rs: insert_tag, remove, clear, tag, tag_mut, change_file_type"]}
{"id": "C207", "title": "Saving a tagged file writes its writable tags in order, and only those", "statement": "If the writers keep the type of the file, saving succeeds with a content exactly if that content results from writing, one after the other, the tags that the format can write; tags that it only reads are skipped; if no writer fails saving succeeds; it is all or nothing.", "quantifier": "all collections, contents and writers", "why_tests_cant": "all combinations of tags and all failures of writers", "anchors": ["lofty/src/file/tagged_file.rs: TaggedFile::save_to", "lofty/src/tag/utils.rs: write_tag"]}
{"id": "C208", "title": "A tag is only written to files of formats that support it", "statement": "Saving a tag of a type the format of the file can write runs the writer for that type; otherwise it is refused and nothing is written; it never panics.", "quantifier": "all tags, contents and writers", "why_tests_cant": "all pairs of formats and tags, empty and not", "anchors": ["lofty/src/tag/tag_ext.rs: TagExt::save_to", "lofty/src/tag/utils.rs: write_tag", "lofty_attr/src/internal.rs: write_module", "lofty/src/flac/write.rs: write_to"]}
{"id": "C209", "title": "A tag can be removed from a file if its type can be read", "statement": "Removal runs the writer of that type with an empty tag (or the one that strips ID3v2 tags) if the format can read the type and is refused otherwise; by path it does the same to the file.", "quantifier": "all types, contents, paths and writers", "why_tests_cant": "all pairs of formats and tags", "anchors": ["lofty/src/tag/tag_type.rs: remove_from, remove_from_path, do_remove", "lofty/src/util/io.rs: VerifiedFile"]}
{"id": "C210", "title": "A file that was read can be saved again", "statement": "The tags of a format's file type are those the format can read; saving writes those that are there in order, and does not fail unless a writer does; the tagged file made of it has the same tags.", "quantifier": "all files, contents and writers", "why_tests_cant": "all combinations of tags", "anchors": ["lofty_attr/src/lofty_file.rs: get_save_to_body, generate_from_taggedfile_impl, generate_audiofile_impl", "lofty/src/flac/mod.rs: FlacFile::write_to"]}
{"id": "C211", "title": "Saving a bound file keeps in memory what is in the file", "statement": "BoundTaggedFile::save changes the file as saving the tags does; afterwards the tags that were empty are gone, the others are kept; with an error nothing is dropped.", "quantifier": "all collections, contents and writers", "why_tests_cant": "all collections", "anchors": ["lofty/src/file/tagged_file.rs: BoundTaggedFile::save"]}
{"id": "C212", "title": "RIFF INFO lists become generic tags and back without loss", "statement": "Every item of the list appears in the tag in order, as a text without null characters at its ends; going back gives the same list; a tag turned into a list and back has its texts and links under keys of the format, in order.", "quantifier": "all lists and tags", "why_tests_cant": "unbounded lists, all keys, values with null characters", "anchors": ["lofty/src/iff/wav/tag/mod.rs: SplitTag, MergeTag, From<RiffInfoList> for Tag, From<Tag> for RiffInfoList"]}
{"id": "C213", "title": "A generic tag is written as an INFO list like its conversion is", "statement": "The list that is written for a generic tag is the one the tag converts to; a rating is written as its number and comes back as a rating.", "quantifier": "all tags and rating providers", "why_tests_cant": "unbounded tags, all ratings", "anchors": ["lofty/src/iff/wav/tag/mod.rs: tagitems_into_riff", "lofty/src/tag/utils.rs: dump_tag", "lofty_attr/src/internal.rs: write_module"]}
{"id": "C214", "title": "AIFF text chunks become generic tags and back without loss", "statement": "The text chunks made from the tag of some text chunks are the same; those made of any tag have the first title, artist and copyright message and all comments in order, and are what is written for the tag.", "quantifier": "all text chunks and tags", "why_tests_cant": "unbounded lists of comments, all orders of items", "anchors": ["lofty/src/iff/aiff/tag/mod.rs: SplitTag, MergeTag, From<AiffTextChunks> for Tag, From<Tag> for AiffTextChunks", "lofty_attr/src/internal.rs: write_module", "lofty/src/tag/item.rs: take_strings"]}
{"id": "C215", "title": "The accessors of RIFF INFO lists behave like fields", "statement": "After setting a text, a number or a date, reading it gives it; after removing it there is none; the others are untouched; they see what the generic tag of the list shows.", "quantifier": "all lists, values, numbers and valid dates", "why_tests_cant": "unbounded lists", "anchors": ["lofty/src/iff/wav/tag/mod.rs: impl_accessor, track, set_track, track_total, date, set_date, contains"]}
{"id": "C216", "title": "The accessors and counts of AIFF text chunks agree with their content", "statement": "A comment that is set is read back and one that is removed is not; there are none of them exactly if the count is zero; a key is contained exactly if the generic tag has an item under it.", "quantifier": "all text chunks", "why_tests_cant": "all combinations of absent, empty and filled chunks", "anchors": ["lofty/src/iff/aiff/tag/mod.rs: comment, set_comment, remove_comment, len, contains, is_empty"]}
{"id": "C217", "title": "A generic tag saved to a WAV or AIFF file is read back", "statement": "Saving to a WAV file without an INFO list and reading it again gives a tag with the texts and links of the first under keys of the format that are not empty; saving to an AIFF file gives the title, artist, copyright message and the comments.", "quantifier": "all files of well-formed chunks, all tags that fit", "why_tests_cant": "unbounded files and tags", "anchors": ["lofty/src/iff/wav/tag/mod.rs: TagExt for Tag", "lofty/src/iff/aiff/tag/mod.rs: AiffTextChunksRef::write_to", "lofty/src/iff/wav/tag/write.rs: write_riff_info", "lofty/src/iff/wav/tag/read.rs: parse_riff_info"]}
{"id": "C218", "title": "A SYLT frame is read as its layout says, and every byte of it is accounted for", "statement": "Every well-formed synchronised text in any of the encodings, with a byte order mark on every text or on the description only, is read as its description, times and texts; anything that is read has that layout, with a terminator and a time for each text and nothing left over; no content panics.", "quantifier": "all contents", "why_tests_cant": "unbounded number of texts, all mixtures of byte order marks, truncations anywhere", "anchors": ["lofty/src/id3/v2/items/sync_text.rs: SynchronizedTextFrame::parse", "lofty/src/util/text.rs: decode_text, utf16_decode_terminated_maybe_bom"]}
{"id": "C219", "title": "A SYLT frame that is written reads back", "statement": "Writing a frame with a valid language and texts without null characters and reading it gives the same frame, in both versions of ID3v2 and all encodings; contents of 2^32 bytes or more are refused.", "quantifier": "all frames, options and encodings", "why_tests_cant": "all texts and encodings", "anchors": ["lofty/src/id3/v2/items/sync_text.rs: SynchronizedTextFrame::as_bytes, parse"]}
{"id": "C220", "title": "A GEOB frame that is written reads back", "statement": "Writing a frame and reading it gives the same MIME type, name, description and object, in the encoding that the version has; no content panics.", "quantifier": "all frames, options, encodings and contents", "why_tests_cant": "all texts and encodings, all objects", "anchors": ["lofty/src/id3/v2/items/encapsulated_object.rs: GeneralEncapsulatedObject::parse, as_bytes"]}
{"id": "C221", "title": "An ATXT frame that is written reads back", "statement": "Writing a frame and reading it gives the same MIME type, flag, text and clip, in the encoding that the version has; no content panics; equal frames have equal clips.", "quantifier": "all frames, options, encodings and contents", "why_tests_cant": "all texts and encodings, all clips", "anchors": ["lofty/src/id3/v2/items/audio_text_frame.rs: AudioTextFrame::parse, as_bytes, PartialEq"]}
{"id": "C222", "title": "Scrambling a clip twice gives it back", "statement": "The scrambling table holds the sequence of the shift register x^7 + x^6 + 1 that starts with seven ones, which repeats after 127 bytes; each byte of a clip is combined with the byte of the table at its place; the length stays and scrambling again gives the clip; it never panics.", "quantifier": "all clips", "why_tests_cant": "clips of all lengths", "anchors": ["lofty/src/id3/v2/items/audio_text_frame.rs: SCRAMBLING_TABLE, scramble"]}
{"id": "C223", "title": "The properties of an APE file are those of its header", "statement": "A Monkey's Audio file of version 3.98 or later, with a descriptor of any length and with any ID3v2, APE and ID3v1 tags around it, is read with the version, sample rate, bit depth and channels of its header, and with its tags.", "quantifier": "all headers, descriptors, audio and tags", "why_tests_cant": "all field values, all lengths of the descriptor, all tags around", "anchors": ["lofty/src/ape/properties.rs: read_properties, properties_gt_3980", "lofty/src/ape/read.rs: read_from"]}
{"id": "C224", "title": "The properties of an APE file of an older version are those of its header", "statement": "A Monkey's Audio file before version 3.98 is read with the version, sample rate and channels of its header and the bit depth that its flags say.", "quantifier": "all headers, audio and tags", "why_tests_cant": "all versions, compression levels and flags", "anchors": ["lofty/src/ape/properties.rs: read_properties, properties_lt_3980"]}
{"id": "C225", "title": "The duration of an APE file is that of its blocks", "statement": "The duration is the number of blocks in all frames divided by the sample rate, rounded to the nearest millisecond, where the blocks in a frame of the older versions follow from the version and compression level; it is zero without a sample rate.", "quantifier": "all headers with fewer than 2^38 blocks", "why_tests_cant": "f64 arithmetic for all numbers of blocks and rates", "anchors": ["lofty/src/ape/properties.rs: get_duration_bitrate, properties_lt_3980"]}
{"id": "C226", "title": "The bit rates of an APE file are those of its audio and of the file", "statement": "The audio bit rate is that of the file without its tags, the overall bit rate that of the whole file, each the nearest number of kbps up to 1/65536.", "quantifier": "all files below 2^50 bytes with fewer than 2^38 blocks and a bit rate below 2^32", "why_tests_cant": "f64 arithmetic for all sizes, lengths and tags", "anchors": ["lofty/src/ape/properties.rs: get_duration_bitrate", "lofty/src/ape/read.rs: read_from"]}
{"id": "C227", "title": "APE headers that cannot be are refused in strict mode only", "statement": "A number of channels that is not from 1 to 32, or no frames, is an error in strict mode; in other modes the fields of the header are reported and the times are zero.", "quantifier": "all headers, all tags", "why_tests_cant": "all values of the fields", "anchors": ["lofty/src/ape/properties.rs: verify, properties_gt_3980, properties_lt_3980"]}
{"id": "C228", "title": "Reading the properties of an APE file is total and reads a whole header", "statement": "No bytes make the reading of the properties panic; if it succeeds, the header is there in full; if properties are not asked for, nothing after the identifier matters.", "quantifier": "all bytes", "why_tests_cant": "truncation anywhere, any descriptor length", "anchors": ["lofty/src/ape/properties.rs: read_properties, properties_gt_3980, properties_lt_3980", "lofty/src/ape/read.rs: read_from"]}
{"id": "C229", "title": "Saving keeps the type of the file", "statement": "After a tag has been saved to a file or removed from it, the file is recognised as what it was before.", "quantifier": "all files of the formats, all tags, all registries whose resolvers claim neither content", "why_tests_cant": "any content, any old tag, any new tag: the writers move, cut and splice what the recognition looks at", "anchors": ["lofty/src/probe.rs: guess_inner", "lofty/src/iff/wav/tag/write.rs: write_riff_info", "lofty/src/iff/aiff/tag/mod.rs: write_to_inner", "lofty/src/id3/v2/write/chunk_file.rs: write_to_chunk_file", "lofty/src/id3/v2/write/mod.rs: write_id3v2", "lofty/src/id3/v1/write.rs: write_id3v1", "lofty/src/ape/tag/write.rs: write_to", "lofty/src/flac/write.rs: write_to_inner", "lofty/src/mp4/ilst/write.rs: write_to", "lofty/src/ogg/tag/write.rs: write"]}
{"id": "C230", "title": "Vectors are filled inside of their memory", "statement": "The fallible vectors hold exactly the copies that were asked for; a size over the limit is refused before memory is asked for, and a failing allocator gives an error; nothing is written outside of the memory.", "quantifier": "every element type, size, limit and allocator", "why_tests_cant": "every capacity an allocator may give; unsafe code whose errors do not show", "anchors": ["lofty/src/util/alloc.rs: fallible_repeat, fallible_vec_from_element, try_with_capacity_stable"]}
{"id": "C231", "title": "The options of a thread are its own", "statement": "A thread sees the global options that it applied last, or the default, whatever other threads do; each setter changes what it names.", "quantifier": "every interleaving of applications by any number of threads", "why_tests_cant": "all interleavings", "anchors": ["lofty/src/config/global_options.rs: GlobalOptions, apply_global_options, global_options"]}
{"id": "C232", "title": "The limit for allocations only refuses what is larger", "statement": "With a limit, Vorbis comments and APE items are read as without one or refused; they are refused exactly if a field is larger than the limit; a higher limit reads what a lower one does; nothing larger than the limit comes out, and no memory above it is asked for.", "quantifier": "every input, length, limit and option", "why_tests_cant": "all sizes around the limit, all contents", "anchors": ["lofty/src/ogg/tag/read.rs: read_comments", "lofty/src/ape/tag/read.rs: read_ape_tag_with_header", "lofty/src/picture/mod.rs: from_flac_bytes_inner", "lofty/src/config/global_options.rs: allocation_limit"]}
{"id": "C233", "title": "Frames are written up to the limit for allocations", "statement": "as_bytes of a frame fails exactly if the result would be longer than the limit, as it is documented for PRIV, POPM, ETCO, CHAP and CTOC.", "quantifier": "every frame, limit and write option", "why_tests_cant": "all lengths around the limit", "anchors": ["lofty/src/id3/v2/items/private_frame.rs: as_bytes", "lofty/src/id3/v2/items/popularimeter.rs: as_bytes", "lofty/src/id3/v2/items/event_timing_codes_frame.rs: as_bytes", "lofty/src/id3/v2/items/chapter_frame.rs: as_bytes", "lofty/src/id3/v2/items/table_of_contents_frame.rs: as_bytes"]}
{"id": "C234", "title": "Extensible and compressed WAV files are described by their format chunk", "statement": "For an extensible format chunk the bit depth is that of the valid bits, the channel mask is that of the chunk and the format that of the sub-format; for a compressed format the duration is the number of samples in the fact chunk over the sample rate; without either the properties have no duration.", "quantifier": "every format chunk, fact chunk and size of the data", "why_tests_cant": "all combinations of format, sizes and counts", "anchors": ["lofty/src/iff/wav/properties.rs: read_fmt_chunk, read_properties", "lofty/src/iff/wav/read.rs: read_from"]}
{"id": "C235", "title": "The generic properties of a file are those of its format", "statement": "FileProperties has the duration, bit rates, sample rate, bit depth, number of channels and channel mask that the properties of the format have; the mask has one speaker for each channel; nothing is reported if the properties are not read.", "quantifier": "every properties value of every format", "why_tests_cant": "all formats with all values", "anchors": ["lofty/src/properties/file_properties.rs: FileProperties", "lofty/src/properties/channel_mask.rs: ChannelMask", "lofty/src/mpeg/properties.rs: From<MpegProperties> for FileProperties", "lofty/src/wavpack/properties.rs: From<WavPackProperties> for FileProperties", "lofty/src/iff/aiff/properties.rs: From<AiffProperties> for FileProperties", "lofty/src/aac/properties.rs: From<AACProperties> for FileProperties", "lofty/src/ogg/opus/properties.rs: From<OpusProperties> for FileProperties", "lofty/src/ape/properties.rs: From<ApeProperties> for FileProperties"]}
{"id": "C236", "title": "User defined texts of an ID3v2 tag are a map by description", "statement": "After reading a tag no two user defined texts have the same description. Setting a text replaces the one with that description and no other, getting finds it, removing takes out that one; other frames stay as they are. The values of a text frame are its text between null characters.", "quantifier": "every tag that is read, every description, content and list of frames", "why_tests_cant": "all contents of tags and sequences of calls", "anchors": ["lofty/src/id3/v2/frame/list.rs: get_user_text, insert_user_text, remove_user_text, get_texts, insert", "lofty/src/id3/v2/read.rs: read_all_frames_into_tag"]}
{"id": "C237", "title": "Pictures of an ID3v2 tag are kept apart by type", "statement": "insert_picture adds a picture at the end; there is one icon and one other icon at most, which are replaced. remove_picture_type takes out all pictures of a type and nothing else. No picture is there twice.", "quantifier": "every list of frames and every picture", "why_tests_cant": "all lists of frames", "anchors": ["lofty/src/id3/v2/frame/list.rs: insert_picture, remove_picture_type", "lofty/src/id3/v2/items/attached_picture_frame.rs: AttachedPictureFrame"]}
{"id": "C238", "title": "A generic tag saved to an OGG or FLAC file is read back", "statement": "A generic tag that is saved to an OGG or FLAC file and read again from that file has the same pictures and, in the same order, the same items with a text whose key has a name in Vorbis comments. Items without a name and binary values are left out, locators come back as texts, and the vendor of the file is the encoder unless the tag has one.", "quantifier": "every generic tag, every OGG layout or FLAC file, all read options", "why_tests_cant": "all tags and files, in all sizes; the conversion, the writer and the reader together", "anchors": ["lofty/src/ogg/tag.rs: From<VorbisComments> for Tag, create_vorbis_comments_ref, save_to", "lofty/src/ogg/tag/write.rs: write_to, write", "lofty/src/flac/write.rs: write_to_inner", "lofty/src/ogg/read.rs: read_comments", "lofty/src/tag/item.rs: gen_map, VORBIS_MAP"]}
{"id": "C239", "title": "A generic tag saved to an APE, WavPack or Musepack file is read back", "statement": "A generic tag that is saved as APE tag to a Monkey's Audio, WavPack or Musepack file and read again from that file has the same items, with texts, locators and binary values, in the same order; the numbers of tracks and discs come last. The ID3v2 tag in front and the ID3v1 tag at the end are read as before.", "quantifier": "every generic tag, every file of these formats with or without ID3v2, APE and ID3v1 tags", "why_tests_cant": "all tags and files; the conversion, the writer and the readers together", "anchors": ["lofty/src/ape/tag/mod.rs: tagitems_into_ape, From<ApeTag> for Tag, split_tag", "lofty/src/ape/tag/write.rs: write_to, create_ape_tag", "lofty/src/ape/read.rs: read_from", "lofty/src/wavpack/read.rs: read_from", "lofty/src/musepack/read.rs: read_from", "lofty/src/id3/mod.rs: find_id3v1"]}
{"id": "C240", "title": "A generic tag saved to an MP4 file is read back", "statement": "A generic tag that is saved to an MP4 file and read again from that file has the same texts under the same keys in the same order, the same track and disc numbers and totals, the same parental advisory and the same pictures.", "quantifier": "every generic tag, every MP4 file with or without user data, all paddings, all parsing modes", "why_tests_cant": "all tags and files; the conversion, the writer and the reader together", "anchors": ["lofty/src/mp4/ilst/mod.rs: From<Tag> for Ilst, From<Ilst> for Tag, MergeTag::merge_tag, SplitTag::split_tag", "lofty/src/mp4/ilst/write.rs: write_to, build_ilst", "lofty/src/mp4/ilst/read.rs: parse_ilst", "lofty/src/mp4/moov.rs", "lofty/src/tag/utils.rs: write_tag"]}
{"id": "C241", "title": "A generic tag saved as ID3v2.4 to an MPEG or AAC file is read back", "statement": "A generic tag that is saved as ID3v2.4 to an MPEG or AAC file and read again from that file has the same items (key, value, language and description) and the same pictures up to order, and the other tags of the file stay as they were.", "quantifier": "every generic tag, every MPEG or AAC file with or without an ID3v2 tag in front, all parsing modes, every compression", "why_tests_cant": "all tags and files; the conversion, the writer and the reader together", "anchors": ["lofty/src/id3/v2/tag/conversion.rs: tag_frames, From<Tag> for Id3v2Tag, MergeTag::merge_tag", "lofty/src/id3/v2/tag.rs: SplitTag::split_tag", "lofty/src/id3/v2/write/mod.rs: write_id3v2, create_tag", "lofty/src/id3/v2/read.rs: parse_id3v2", "lofty/src/mpeg/read.rs: read_from", "lofty/src/aac/read.rs: read_from", "lofty/src/tag/utils.rs: write_tag"]}
{"id": "C242", "title": "A generic tag saved as ID3v1 is read back", "statement": "A generic tag that is saved as ID3v1 and read again has the same title, artist, album, comment, year, track number and genre, and the other tags of the file stay as they were.", "quantifier": "every generic tag, every file with or without an ID3v1 tag, lossy and strict writing, all parsing modes", "why_tests_cant": "all tags and files; the conversion, the writer and the reader together", "anchors": ["lofty/src/id3/v1/tag.rs: From<&Tag> for Id3v1TagRef, From<Id3v1Tag> for Tag", "lofty/src/id3/v1/write.rs: write_id3v1, encode", "lofty/src/id3/v1/read.rs: Id3v1Tag::parse", "lofty/src/mpeg/read.rs: read_from"]}
{"id": "C243", "title": "A generic tag saved as ID3v2.4 to a WAV or AIFF file is read back", "statement": "A generic tag that is saved as ID3v2.4 to a WAV or AIFF file and read again from that file has the same items (key, value, language and description) and the same pictures up to order, and the RIFF INFO tag or the text chunks of the file stay as they were.", "quantifier": "every generic tag, every WAV or AIFF file with or without an ID3 chunk, both names of the chunk, with or without padding, all parsing modes, every compression", "why_tests_cant": "all tags and files; the conversion, the writer and the reader together", "anchors": ["lofty/src/id3/v2/tag/conversion.rs: tag_frames, From<Tag> for Id3v2Tag", "lofty/src/id3/v2/write/mod.rs: write_id3v2, create_tag", "lofty/src/id3/v2/write/chunk_file.rs: write_to_chunk_file", "lofty/src/iff/chunk.rs: id3_chunk", "lofty/src/iff/wav/read.rs: read_from", "lofty/src/iff/aiff/read.rs: read_from"]}
{"id": "C244", "title": "Dumped bytes are what saving puts into the file", "statement": "If a tag can be dumped and can be saved to a file, the file holds the dumped bytes afterwards, as they are and in one piece.", "quantifier": "every ID3v1, ID3v2, APE, RIFF INFO and AIFF text tag, every content of the file, all options; every ilst and every Vorbis comments tag in well-formed MP4, FLAC and OGG files", "why_tests_cant": "all tags and files; two separate paths through the code", "anchors": ["lofty/src/tag/utils.rs: dump_tag", "lofty/src/id3/v1/tag.rs: Id3v1TagRef::dump_to", "lofty/src/id3/v2/tag/conversion.rs: Id3v2TagRef::dump_to", "lofty/src/iff/wav/tag/mod.rs: RIFFInfoListRef::dump_to", "lofty/src/iff/aiff/tag/mod.rs: AiffTextChunksRef::dump_to", "lofty/src/ape/tag/mod.rs: ApeTagRef::dump_to", "lofty/src/mp4/ilst/ref.rs: IlstRef::dump_to", "lofty/src/ogg/tag.rs: VorbisCommentsRef::dump_to", "lofty/src/id3/v2/write/chunk_file.rs: write_to_chunk_file"]}
{"id": "C245", "title": "Saving a tag that can be encoded does not panic", "statement": "If a tag can be encoded, saving it succeeds or returns an error but does not panic, whatever the file contains.", "quantifier": "every ID3v1, ID3v2, APE, RIFF INFO and AIFF text tag and every ilst atom, every sequence of bytes as the file, all options", "why_tests_cant": "all contents of files, including those whose size fields are wrong; panics are slices out of range and overflows at single values", "anchors": ["lofty/src/id3/v1/write.rs: write_id3v1", "lofty/src/id3/v2/write/mod.rs: write_id3v2", "lofty/src/id3/v2/write/chunk_file.rs: write_to_chunk_file", "lofty/src/iff/wav/tag/write.rs: write_riff_info, find_info_list", "lofty/src/iff/aiff/tag/mod.rs: AiffTextChunksRef::write_to", "lofty/src/iff/chunk.rs: Chunks", "lofty/src/ape/tag/write.rs: write_to", "lofty/src/mp4/ilst/write.rs: write_free_atom"]}
{"id": "C246", "title": "Equality, hash and order of ID3v2 frames agree", "statement": "Equality of frames is an equivalence relation, equal frames have the same hash, and values whose order is Equal are equal.", "quantifier": "all frames of every variant, all events and timestamp frames", "why_tests_cant": "all pairs and triples of frames, with hand written and derived implementations side by side", "anchors": ["lofty/src/id3/v2/frame/mod.rs: Frame", "lofty/src/id3/v2/frame/header/mod.rs: FrameHeader, FrameId", "lofty/src/id3/v2/items: PartialEq, Hash and Ord of the frames", "lofty/src/id3/v2/items/event_timing_codes_frame.rs: Ord for Event", "lofty/src/id3/v2/items/timestamp_frame.rs: Ord for TimestampFrame", "lofty/src/tag/items/timestamp.rs: Ord for Timestamp"]}
{"id": "C247", "title": "Saving the same tag a second time changes nothing", "statement": "If a tag is saved to a file, saving the same tag with the same options to the file again succeeds and leaves every byte as it is.", "quantifier": "every ID3v1, ID3v2, APE, RIFF INFO, AIFF text, FLAC and ilst tag, every file, all options", "why_tests_cant": "all tags and files; two runs of the writer, the second on the output of the first", "anchors": ["lofty/src/id3/v1/write.rs: write_id3v1", "lofty/src/id3/v2/write/mod.rs: write_id3v2", "lofty/src/id3/v2/write/chunk_file.rs: write_to_chunk_file", "lofty/src/iff/wav/tag/write.rs: write_riff_info", "lofty/src/iff/aiff/tag/mod.rs: AiffTextChunksRef::write_to", "lofty/src/ape/tag/write.rs: write_to", "lofty/src/flac/write.rs: write_to_inner", "lofty/src/mp4/ilst/write.rs: write_to, save_to_existing"]}
{"id": "C248", "title": "Saving a tag does not change what is read about the audio", "statement": "After a tag was saved, added or removed, reading the properties of the file gives the same format, duration, audio bit rate, sample rate, bit depth, channels and checksum as before; only the overall bit rate, that of the whole file, changes.", "quantifier": "every WAV, AIFF, FLAC, MPEG, AAC, APE, WavPack, Musepack, OGG and MP4 file, every RIFF INFO, AIFF text, ID3v2, APE, Vorbis comments and MP4 tag, all parsing modes and options", "why_tests_cant": "all files and tags; writer and reader together, over layouts where audio is before, between and after tags", "anchors": ["lofty/src/iff/wav/properties.rs: read_properties", "lofty/src/iff/wav/read.rs: read_from", "lofty/src/iff/aiff/properties.rs: read_properties", "lofty/src/iff/aiff/read.rs: read_from", "lofty/src/flac/properties.rs: read_properties", "lofty/src/flac/read.rs: read_from", "lofty/src/id3/v2/write/chunk_file.rs: write_to_chunk_file", "lofty/src/iff/wav/tag/write.rs: write_riff_info", "lofty/src/iff/aiff/tag/mod.rs: AiffTextChunksRef::write_to", "lofty/src/flac/write.rs: write_to_inner", "lofty/src/mpeg/read.rs: read_from", "lofty/src/mpeg/properties.rs: read_properties", "lofty/src/aac/read.rs: read_from", "lofty/src/aac/properties.rs: read_properties", "lofty/src/id3/v2/write/mod.rs: write_id3v2", "lofty/src/ape/read.rs: read_from", "lofty/src/wavpack/read.rs: read_from", "lofty/src/musepack/read.rs: read_from", "lofty/src/ape/tag/write.rs: write_to", "lofty/src/ogg/tag/write.rs: write", "lofty/src/ogg/opus/properties.rs: read_properties", "lofty/src/ogg/vorbis/properties.rs: read_properties", "lofty/src/ogg/speex/properties.rs: read_properties", "lofty/src/mp4/properties.rs: read_properties", "lofty/src/mp4/ilst/write.rs: write_to, update_offsets"]}
{"id": "C249", "title": "A tag that is saved and then removed leaves no trace", "statement": "If a tag is saved to a file that has none of this type, and then the tag of this type is removed, every byte of the file is as it was.", "quantifier": "every ID3v1, ID3v2, APE, RIFF INFO, AIFF text, FLAC and ilst tag, every file without a tag of the type, all options", "why_tests_cant": "all files and tags; a size field, a pad byte or a filler left behind shows up for some sizes only", "anchors": ["lofty/src/tag/utils.rs: write_tag", "lofty/src/tag/tag_type.rs: TagType::remove_from", "lofty/src/id3/v1/write.rs: write_id3v1", "lofty/src/id3/v2/write/mod.rs: write_id3v2", "lofty/src/id3/v2/write/chunk_file.rs: write_to_chunk_file", "lofty/src/iff/wav/tag/write.rs: write_riff_info", "lofty/src/iff/aiff/tag/mod.rs: AiffTextChunksRef::write_to", "lofty/src/ape/tag/write.rs: write_to", "lofty/src/flac/write.rs: write_to_inner", "lofty/src/mp4/ilst/write.rs: write_to"]}
{"id": "C250", "title": "The tag that was saved last decides", "statement": "If two tags of a type can each be saved to a file, saving one and then the other gives, byte for byte, the file that saving the other alone gives.", "quantifier": "all pairs of ID3v1, ID3v2, APE, RIFF INFO, AIFF text, FLAC and ilst tags, every file, all options", "why_tests_cant": "all pairs of tags and all files; what a first save leaves behind depends on the sizes of both tags", "anchors": ["lofty/src/tag/utils.rs: write_tag", "lofty/src/id3/v1/write.rs: write_id3v1", "lofty/src/id3/v2/write/mod.rs: write_id3v2", "lofty/src/id3/v2/write/chunk_file.rs: write_to_chunk_file", "lofty/src/iff/wav/tag/write.rs: write_riff_info", "lofty/src/iff/aiff/tag/mod.rs: AiffTextChunksRef::write_to", "lofty/src/ape/tag/write.rs: write_to", "lofty/src/flac/write.rs: write_to_inner", "lofty/src/mp4/ilst/write.rs: write_to"]}
{"id": "C251", "title": "Tags of different types can be saved in any order", "statement": "If two tags of different types can each be saved to a file, both orders of saving them succeed and give the same file.", "quantifier": "all pairs of ID3v1 and ID3v2, ID3v1 and APE, ID3v2 and APE, AIFF text and ID3v2, RIFF INFO and ID3v2 tags, every file that may have them already, all options", "why_tests_cant": "all pairs of tags and all files; one tag is found in the presence of the other, whatever it contains", "anchors": ["lofty/src/tag/utils.rs: write_tag", "lofty/src/id3/v1/write.rs: write_id3v1", "lofty/src/id3/v2/write/mod.rs: write_id3v2", "lofty/src/id3/v2/write/chunk_file.rs: write_to_chunk_file", "lofty/src/id3/mod.rs: find_id3v1, find_id3v2", "lofty/src/iff/wav/tag/write.rs: write_riff_info", "lofty/src/iff/aiff/tag/mod.rs: AiffTextChunksRef::write_to", "lofty/src/ape/tag/write.rs: write_to"]}
