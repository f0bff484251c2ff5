prop("C01","Synchsafe integers: checked encoding is exact",
 "For u8, u16 and u32, `n.synch()` returns an error exactly when n needs more than 7 bits per byte of its type; otherwise every byte of the result has its top bit clear and `unsynch` of the result is n.",
 "every value of u8, u16 and u32","the u32 domain has 2^32 values and the result is bit-interleaved; tests only check one value per width",
 ["lofty/src/id3/v2/util/synchsafe.rs: SynchsafeInteger::synch, unsynch, impl_synchsafe!"],
 "Model the three macro instances with N.land/N.lor/N.shiftl; prove via mask/shift lemmas turned into div/mod arithmetic.")
prop("C02","Synchsafe integers: widening encoding never loses bits",
 "`n.widening_synch()` always succeeds, has every byte's top bit clear, fits the widened type, and reading the 7-bit groups back gives n; for u8 and u16 the library's own `unsynch` on the widened type recovers n.",
 "every value of u8, u16 and u32","same as C01; the widened u64 has no unsynch implementation to test against",
 ["lofty/src/id3/v2/util/synchsafe.rs: widening_synch"],
 "Same arithmetic; a generic 7-bit-group value function is the specification.")
prop("C03","UnsynchronizedStream is independent of buffering",
 "Reading a stream to its end through UnsynchronizedStream yields the inner bytes with every 0x00 that directly follows a kept 0xFF removed, whatever sizes the caller's reads have and however the inner reader splits its data.",
 "every byte stream, every caller read-size schedule and every inner reader chunking (the internal buffer is 8192 bytes)",
 "the number of schedules is infinite and the 0xFF flag must survive every buffer boundary",
 ["lofty/src/id3/v2/util/synchsafe.rs: UnsynchronizedStream::read"],
 "Model the loop as a state machine (buffered bytes, flag, inner reader as an arbitrary list of chunks); prove by induction it refines a pure two-state filter.")
prop("C04","Unsynchronised data decodes to the original",
 "Applying the ID3v2 unsynchronisation scheme (insert 0x00 after every 0xFF) to any data and reading it through UnsynchronizedStream returns the data.",
 "every byte string","unbounded input",
 ["lofty/src/id3/v2/util/synchsafe.rs: UnsynchronizedStream::read"],
 "Corollary of C03's pure filter by induction on the data.")
prop("C05","OGG page bytes round-trip",
 "Page::read of Page::as_bytes (followed by any bytes) returns the same flag, granule position, serial, sequence number, checksum, segment table and content, with end = start + the number of bytes consumed, and leaves the rest unread; provided the page has 1..255 segments that sum to the content length.",
 "every well-formed page and every trailing data","unbounded contents",
 ["ogg_pager/src/lib.rs: Page::as_bytes, Page::read","ogg_pager/src/header.rs: PageHeader::read, content_size"],
 "Model reader as byte list + position; prove by computation over the fixed header and lemmas on little-endian fields.")
prop("C06","paginate produces well-formed pages that carry exactly the packets",
 "For any packets, the pages returned by paginate concatenate to the packets' concatenation; every page has between 1 and 32 segments, segment sizes summing to the page's content length; serial numbers equal the given one; sequence numbers count from 0.",
 "every list of packets and every flags/serial/granule argument","packet sizes are unbounded and boundary cases (multiples of 255 and 8160) interact",
 ["ogg_pager/src/paginate.rs: paginate, paginate_packet, PaginateContext::flush_page"],
 "Model the context record and loop with fuel = packet length; invariant by induction over packet chunks.")
prop("C07","Writing packets and reading them back is the identity",
 "Packets::read of the bytes written by Packets::write_to returns the same packets, for every list of packets.",
 "every list of packets, including empty ones and exact multiples of the page capacity","unbounded sizes, boundary cases",
 ["ogg_pager/src/packets.rs: Packets::read, read_count, write_to","ogg_pager/src/paginate.rs"],
 "Compose C05/C06 with a model of read_count; expected to be false for empty packets (no page is emitted): refute that part with a witness and prove it for non-empty packets.")
prop("C08","Page flags and granule positions of paginated packets",
 "A page written by paginate is marked 'continued' exactly when it starts in the middle of a packet; its granule position is the given one exactly when some packet ends on it, and -1 otherwise; first/last-page flags are only set on the first/last page when requested.",
 "every list of packets and flags","unbounded sizes, boundary cases",
 ["ogg_pager/src/paginate.rs: flush_page, paginate"],
 "State over the model of C06. Expected to fail at exact multiples of 8160 (granule position) - refute and prove the rest.")
prop("C09","OGG checksum is the specified CRC-32 and catches any single-byte corruption",
 "crc32 equals the bit-serial CRC with polynomial 0x04C11DB7, initial value 0, no reflection; and two pages of equal length that differ in exactly one byte have different checksums.",
 "every byte string","unbounded strings; 256-entry table",
 ["ogg_pager/src/crc.rs: CRC_LOOKUP_ARRAY, crc32"],
 "Table copied from the source; finite check of the 256 entries against the bit-serial step, lifted by linearity; injectivity of the state step.")
prop("C10","Packets::set/get behave like an indexed list",
 "For any Packets value: get(i) is the i-th packet (None out of range); set(i,c) returns true and replaces exactly packet i when i is in range, and returns false changing nothing otherwise; len and iteration agree; this holds after any sequence of set operations.",
 "every Packets value and every sequence of set calls","unbounded histories; contents share one flat buffer",
 ["ogg_pager/src/packets.rs: packet_span, get, set, iter, len, paginate"],
 "Refinement: abstraction from (content,sizes) to list of packets; each operation commutes.")
prop("C11","Latin-1 text encoding",
 "Encoding to Latin-1 without lossy mode fails exactly when the text has a character above U+00FF; otherwise decoding the bytes returns the text without trailing NULs. In lossy mode it never fails and replaces exactly the unencodable characters by '?'.",
 "every Unicode string","unbounded strings",
 ["lofty/src/util/text.rs: latin1_encode, latin1_decode, TextEncoding::encode, decode_text, trim_end_nulls"],
 "Strings as lists of scalar values; induction.")
prop("C12","Text round-trips in every ID3v2 encoding",
 "For each TextEncoding, decode_text(encode(t, terminated)) returns t, reports exactly the number of bytes consumed, and when terminated leaves the bytes after the terminator unread; for every text without NULs (and, for UTF-16, without the byte-order-mark characters).",
 "every Unicode string, every encoding, every trailing data","unbounded strings; surrogate pairs",
 ["lofty/src/util/text.rs: TextEncoding::encode, decode_text, read_to_terminator, utf16_encode, utf16_decode_bytes, utf8_decode"],
 "Model UTF-8/UTF-16 codecs on scalar values; prove codec inverses; then induction. The unrestricted statement is refuted (U+FEFF is dropped, trailing NULs trimmed).")
prop("C13","Decoding text never panics and is total",
 "decode_text on any byte string, with any encoding, BOM hint and termination flag returns a value or an error (no panic), and on success never reports more bytes than it was given.",
 "every byte string and option combination","unbounded inputs",
 ["lofty/src/util/text.rs: decode_text, read_to_terminator"],
 "Panic is a value in the model (slice indexing); prove unreachable.")
prop("C14","ID3v1 encoding is a 128-byte block",
 "Encoding any ID3v1 tag either fails (a character does not fit Latin-1 and lossy mode is off) or yields exactly 128 bytes starting with \"TAG\", with a zero byte at offset 125.",
 "every Id3v1Tag value","unbounded field strings",
 ["lofty/src/id3/v1/write.rs: encode, resize_string"],
 "Direct model; length lemmas.")
prop("C15","ID3v1 round-trip up to the format's limits",
 "Parsing the bytes written for a tag returns each text field truncated to 30/30/30/28 characters (up to its first NUL, empty as absent), the year capped at 9999, the track number (0 as absent) and the genre (if < 192).",
 "every tag with Latin-1 text fields","unbounded strings; field interactions",
 ["lofty/src/id3/v1/write.rs: encode","lofty/src/id3/v1/read.rs: Id3v1Tag::parse, decode_text, try_parse_year"],
 "Compose model of encode and parse; slice lemmas.")
prop("C16","ID3v1 re-save is stable",
 "For every 128-byte block that parses, re-encoding the parsed tag and parsing again returns the same tag.",
 "every 128-byte block","256^128 blocks",
 ["lofty/src/id3/v1/read.rs","lofty/src/id3/v1/write.rs"],
 "Expected false for ID3v1.0 blocks whose comment uses bytes 29/30: refute, and prove the rest.")
prop("C17","Saving an ID3v1 tag touches only the trailing 128 bytes",
 "Saving a non-empty tag to a file keeps every byte of the file that is not part of an existing trailing ID3v1 block, and afterwards the file ends with the encoded tag; saving an empty tag removes an existing block and otherwise leaves the file unchanged; at any crash point during the save the bytes before the block are intact.",
 "every file content, every tag, every crash point","unbounded files; crash points",
 ["lofty/src/id3/v1/write.rs: write_id3v1","lofty/src/id3/mod.rs: find_id3v1"],
 "File model with operation log. The empty-tag/no-block case is expected to be violated (an empty block is appended): refute.")
prop("C18","Timestamp display/parse round-trip",
 "For every timestamp that passes verification, parsing its to_string() in any parsing mode returns the same timestamp; the string is at most 19 bytes long.",
 "every valid Timestamp and every ParsingMode","10^4*13*32*24*60*60 values x modes",
 ["lofty/src/tag/items/timestamp.rs: Display, Timestamp::parse, segment, verify"],
 "Model parse over bytes with explicit fields; case analysis on present fields, arithmetic on digits.")
prop("C19","Timestamp order is the lexicographic order of its text",
 "For verified timestamps, a.cmp(b) equals the byte-wise comparison of a.to_string() and b.to_string(); cmp is a total order and is Equal only for equal timestamps.",
 "every pair of timestamps","quadratic in a huge domain",
 ["lofty/src/tag/items/timestamp.rs: Ord, Display"],
 "Lexicographic comparison lemma on fixed-width digit fields.")
prop("C20","Timestamp parsing never panics and bounds its fields",
 "Timestamp::parse on any bytes in any mode returns without panicking; a returned timestamp has year <= 9999 and all other fields <= 99, and a field is present only if its parent is.",
 "every byte string, every mode","unbounded input; contains assert_ne! and unchecked arithmetic",
 ["lofty/src/tag/items/timestamp.rs: parse, segment"],
 "Panic as value; invariants of segment.")
prop("C21","Star ratings survive conversion",
 "For each rating provider (MusicBee, Windows Media Player, Picard, default) and every tag type, convert_raw(rate(r)) = r; rate is strictly increasing; convert_raw is monotone.",
 "every provider, tag type, star rating and raw byte","finite but untested",
 ["lofty/src/tag/items/popularimeter.rs: RatingProvider impls"],
 "Finite domain: exhaustive computation lifted to a forall.")
prop("C22","Popularimeter text form round-trips",
 "Parsing a Popularimeter's to_string() yields the same email, rating and play counter.",
 "every email, rating and u64 counter","unbounded strings; separator inside the email",
 ["lofty/src/tag/items/popularimeter.rs: Display, from_str"],
 "Model decimal printing/parsing and splitn. Expected false for an email containing '|': refute; prove for the rest.")
prop("C23","ItemKey mapping tables are mutually consistent",
 "For every tag type and every ItemKey k that maps to a format key s, from_key(s) is defined and maps back to s; and from_key(s) = k except for the documented many-to-one keys.",
 "every tag type and ItemKey","tables of several hundred entries; duplicates silently override each other",
 ["lofty/src/tag/item.rs: gen_map!, ItemKey::map_key, ItemKey::from_key"],
 "Tables generated from the source text by script into Coq; finite exhaustive check. Exceptions are listed explicitly in the specification.")
prop("C24","ItemKey::from_key is case-insensitive and independent of hash order",
 "from_key(tt, s) depends only on the ASCII-lowercase form of s, and the iteration order of the internal HashMap cannot change its result.",
 "every tag type, every string, every iteration order","unbounded strings; hash order is random per process",
 ["lofty/src/tag/item.rs: gen_map! get_item_key"],
 "Model HashMap as an arbitrary permutation of its entries; uniqueness of lowercase keys by computation.")
prop("C25","Tag::insert / get / remove laws",
 "After insert(item) that returns true, get(key) returns that item and it is the only item with the key; items with other keys keep their order; insert returns false exactly when the key has no mapping and then changes nothing; remove_key removes exactly the items with the key.",
 "every tag, item and operation history","unbounded tags and histories",
 ["lofty/src/tag/mod.rs: Tag::insert, insert_unchecked, push, get, remove_key, retain","lofty/src/tag/item.rs: TagItem::re_map"],
 "List model; induction.")
prop("C26","Tag::take_filter returns selected items in order and preserves the rest's order",
 "take_filter(key, f) returns exactly the items with the key satisfying f, in their original order, and the tag then holds exactly the other items in their original order.",
 "every tag, key and filter","unbounded tags",
 ["lofty/src/tag/mod.rs: Tag::take_filter"],
 "Model the swap loop on lists. The documentation's ordering claim about the remaining items is expected to be false: refute; prove order of the taken items and that the rest is a permutation.")
prop("C27","Tag::re_map keeps exactly the supported items",
 "re_map(tt) keeps, in order, exactly the items whose key is supported by tt, drops format-specific data and sets the type; it is idempotent.",
 "every tag and tag type","unbounded tags",
 ["lofty/src/tag/mod.rs: re_map","lofty/src/tag/item.rs: re_map","lofty/src/id3/v1/constants.rs: VALID_ITEMKEYS"],
 "List model over the generated key tables.")
prop("C28","APE tag dump/read round-trip",
 "Reading back the bytes dumped for an APE tag returns the same items (key, value kind, value, read-only bit) in the same order, for every tag whose items pass ApeItem::new, with case-insensitively distinct keys, text without trailing NULs and total size below 2^32-32.",
 "every such tag","unbounded tags",
 ["lofty/src/ape/tag/write.rs: create_ape_tag","lofty/src/ape/tag/read.rs: read_ape_tag, read_ape_tag_with_header","lofty/src/ape/tag/header.rs"],
 "Model writer and reader on byte lists with position; induction over items.")
prop("C29","APE item keys stay unique ignoring case",
 "Starting from an empty ApeTag, after any sequence of insert/push/remove/set operations and after reading any bytes, no two items have keys equal ignoring ASCII case; get(key) after insert returns the inserted item.",
 "every operation history, every input bytes","unbounded histories",
 ["lofty/src/ape/tag/mod.rs: insert, push, remove, get"],
 "Invariant by induction over operations.")
prop("C30","APE multi-value text",
 "Pushing text values v1..vn (without NULs) under one key yields an item whose text_values() is v1..vn in order.",
 "every non-empty list of strings","unbounded",
 ["lofty/src/ape/tag/mod.rs: push","lofty/src/ape/tag/item.rs: text_values"],
 "Induction with a split/join lemma.")
prop("C31","APE track/disc number pairs",
 "On an ApeTag, set_track(n) then track() gives n and leaves track_total() unchanged; set_track_total(m) gives m and leaves track() unchanged when it was set; likewise for discs; remove_track_total keeps track().",
 "every tag state reachable through the accessors and every u32","2^64 pairs; text encoding of numbers",
 ["lofty/src/ape/tag/mod.rs: split_num_pair, insert_number_pair","lofty/src/id3/v2/util/pairs.rs: format_number_pair"],
 "Decimal print/parse lemmas; state model.")
prop("C32","ID3v2 tag restrictions byte",
 "TagRestrictions::from_byte(r.as_bytes()) = r and from_byte(b).as_bytes() = b.",
 "every restriction value and every byte","finite; not tested",
 ["lofty/src/id3/v2/restrictions.rs: from_byte, as_bytes"],
 "Exhaustive computation lifted.")
prop("C33","ID3v2 header flags survive a write/read cycle",
 "Parsing a 10-byte ID3v2 header whose flag byte was produced by as_id3v24_byte (resp. as_id3v23_byte) restores the unsynchronisation, experimental and footer flags (resp. experimental and footer) and does not announce an extended header.",
 "every flag combination and size","interaction of writer and parser versions",
 ["lofty/src/id3/v2/header.rs: as_id3v24_byte, as_id3v23_byte, Id3v2Header::parse"],
 "Model parse; ID3v2.3 is expected to be violated (experimental is written on the extended-header bit): refute.")
prop("C34","ID3v2 header sizes are sane",
 "Whenever Id3v2Header::parse succeeds, the size is below 2^28, the extended size is smaller than the size (or zero), and full_tag_size does not overflow u32.",
 "every byte string","unbounded input",
 ["lofty/src/id3/v2/header.rs: Id3v2Header::parse, full_tag_size, read_extended_header"],
 "Direct proof over the parse model.")
prop("C35","Lyrics3v2 blocks are recognised and skipped",
 "If the bytes before the current position end with a Lyrics3v2 footer (6 digit size and \"LYRICS200\"), the search reports it and seeks to its start.",
 "every file content","unbounded",
 ["lofty/src/id3/mod.rs: find_lyrics3v2"],
 "Expected false: the code compares an 8-byte slice with a 9-byte literal. Prove that no block is ever recognised.")
prop("C36","80-bit float conversion",
 "For every F80 whose exponent is in the f64 normal range, as_f64 has the same sign and exponent and the fraction truncated to 52 bits; infinities, NaN and zero map to themselves; out-of-range exponents do not produce garbage.",
 "all 2^80 inputs","2^80 inputs",
 ["lofty/src/util/math.rs: F80::from_be_bytes, as_f64"],
 "Bit-level model of the f64 fields. The out-of-range part is expected to be violated: refute.")
prop("C37","Rounded division",
 "a.div_round(b) is a/b rounded to nearest (ties up) whenever a + b/2 does not overflow the type.",
 "all pairs of unsigned integers of each width","2^128 pairs",
 ["lofty/src/util/math.rs: div_round"],
 "lia/nia over N with explicit overflow.")
