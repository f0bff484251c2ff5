{
 "claims": [
  {
   "property": "C01",
   "status": "proved",
   "theorems": [
    "C01_synch_exact"
   ],
   "note": ""
  },
  {
   "property": "C02",
   "status": "proved",
   "theorems": [
    "C02_widening_exact"
   ],
   "note": ""
  },
  {
   "property": "C03",
   "status": "proved",
   "theorems": [
    "C03_stream_chunk_independent",
    "C03_stream_total"
   ],
   "note": ""
  },
  {
   "property": "C04",
   "status": "proved",
   "theorems": [
    "C04_unsynchronise_inverse"
   ],
   "note": ""
  },
  {
   "property": "C05",
   "status": "proved",
   "theorems": [
    "C05_page_roundtrip",
    "C05_page_canonical"
   ],
   "note": "Both directions: read after write, and bytes that parse are exactly what writing the parsed page gives."
  },
  {
   "property": "C06",
   "status": "proved",
   "theorems": [
    "C06_paginate_wellformed"
   ],
   "note": "Sequence numbers are stated modulo 2^32."
  },
  {
   "property": "C07",
   "status": "partial",
   "theorems": [
    "C07_packets_roundtrip_refuted",
    "C07_packets_roundtrip_partial"
   ],
   "note": "Finding: empty packets are lost. Everything else is returned unchanged: the result is the list of non-empty packets."
  },
  {
   "property": "C08",
   "status": "partial",
   "theorems": [
    "C08_flags",
    "C08_granule_refuted",
    "C08_granule_partial"
   ],
   "note": "Finding: a packet whose length is a non-zero multiple of 8160 gets the granule position on its last full page although it ends on the following one. Flags are exact."
  },
  {
   "property": "C09",
   "status": "proved",
   "theorems": [
    "C09_crc_is_polynomial",
    "C09_crc_detects_bursts",
    "C09_written_checksums"
   ],
   "note": "Stronger: any change within a window of 4 bytes is detected."
  },
  {
   "property": "C10",
   "status": "proved",
   "theorems": [
    "C10_set_get",
    "C10_histories"
   ],
   "note": ""
  },
  {
   "property": "C11",
   "status": "proved",
   "theorems": [
    "C11_latin1_strict",
    "C11_latin1_lossy"
   ],
   "note": ""
  },
  {
   "property": "C12",
   "status": "proved",
   "theorems": [
    "C12_text_roundtrip",
    "C12_what_survives",
    "C12_unrestricted_refuted"
   ],
   "note": "The restriction in the statement is necessary: U+FEFF/U+FFFE inside UTF-16 text are dropped (refuted witness); C12_what_survives gives the exact result for every text written without terminator. Proved for both native byte orders."
  },
  {
   "property": "C13",
   "status": "proved",
   "theorems": [
    "C13_decode_total"
   ],
   "note": ""
  },
  {
   "property": "C14",
   "status": "proved",
   "theorems": [
    "C14_block"
   ],
   "note": ""
  },
  {
   "property": "C15",
   "status": "proved",
   "theorems": [
    "C15_roundtrip"
   ],
   "note": "In strict mode only for tags with a year, see C45."
  },
  {
   "property": "C16",
   "status": "partial",
   "theorems": [
    "C16_resave_refuted",
    "C16_resave_partial"
   ],
   "note": "Finding: a 29 or 30 character comment of an ID3v1.0 block loses its last characters. Proved for every block whose comment is at most 28 characters."
  },
  {
   "property": "C17",
   "status": "partial",
   "theorems": [
    "C17_save",
    "C17_shape_total",
    "C17_empty_tag_unchanged_refuted"
   ],
   "note": "Finding: saving an empty tag to a file without ID3v1 tag appends an empty 128-byte block. All other parts proved, for every crash point."
  },
  {
   "property": "C18",
   "status": "proved",
   "theorems": [
    "C18_roundtrip",
    "C18_from_str",
    "C18_verify_exact"
   ],
   "note": ""
  },
  {
   "property": "C19",
   "status": "proved",
   "theorems": [
    "C19_order",
    "C19_total_order"
   ],
   "note": ""
  },
  {
   "property": "C20",
   "status": "proved",
   "theorems": [
    "C20_parse_total"
   ],
   "note": ""
  },
  {
   "property": "C21",
   "status": "proved",
   "theorems": [
    "C21_star_ratings"
   ],
   "note": ""
  },
  {
   "property": "C22",
   "status": "partial",
   "theorems": [
    "C22_text_partial",
    "C22_text_refuted",
    "C22_empty_email_refuted"
   ],
   "note": "Findings: an email containing '|' breaks parsing; an empty email comes back as none."
  },
  {
   "property": "C23",
   "status": "partial",
   "theorems": [
    "C23_tables",
    "C23_from_key_mapped",
    "C23_all_variants",
    "C23_first_variant_refuted"
   ],
   "note": "Proved with the exceptions listed in ItemKeyThm.exceptions. Finding: for a format key with several meanings the later row wins, not the first as item.rs says (e.g. from_key(Ape, \"Track\") is TrackTotal)."
  },
  {
   "property": "C24",
   "status": "proved",
   "theorems": [
    "C24_order_and_case"
   ],
   "note": ""
  },
  {
   "property": "C25",
   "status": "proved",
   "theorems": [
    "C25_insert",
    "C25_push",
    "C25_remove_key"
   ],
   "note": ""
  },
  {
   "property": "C26",
   "status": "partial",
   "theorems": [
    "C26_take_filter_partial",
    "C26_take_partial",
    "C26_order_refuted"
   ],
   "note": "Finding: the remaining items do not keep their order ([A,B,K] becomes [B,A]). Proved, also for filters with state: the taken items in order, the rest as a permutation."
  },
  {
   "property": "C27",
   "status": "proved",
   "theorems": [
    "C27_re_map"
   ],
   "note": ""
  },
  {
   "property": "C28",
   "status": "proved",
   "theorems": [
    "C28_roundtrip",
    "C28_dump_total"
   ],
   "note": "Holds wherever the tag is in the stream and from either end. The read-only flag of the whole tag is not restored (C67)."
  },
  {
   "property": "C29",
   "status": "proved",
   "theorems": [
    "C29_unique",
    "C29_read_unique",
    "C29_get"
   ],
   "note": "All operations of ApeTag including the conversions, and any bytes read."
  },
  {
   "property": "C30",
   "status": "proved",
   "theorems": [
    "C30_text_values"
   ],
   "note": "Starting from any tag without the key; other keys are unchanged."
  },
  {
   "property": "C31",
   "status": "proved",
   "theorems": [
    "C31_number_pairs"
   ],
   "note": "From every tag state, for the track and disc keys (stated for any key). set_*_total on a tag without number makes the number 0."
  },
  {
   "property": "C32",
   "status": "proved",
   "theorems": [
    "C32_restrictions"
   ],
   "note": ""
  },
  {
   "property": "C33",
   "status": "partial",
   "theorems": [
    "C33_v24_flags",
    "C33_v23_flags_partial",
    "C33_v23_experimental_refuted"
   ],
   "note": "Finding: ID3v2.3's experimental flag is written on the extended header bit. ID3v2.4 fully proved."
  },
  {
   "property": "C34",
   "status": "proved",
   "theorems": [
    "C34_sizes"
   ],
   "note": ""
  },
  {
   "property": "C35",
   "status": "partial",
   "theorems": [
    "C35_never_recognised",
    "C35_recognised_refuted"
   ],
   "note": "Refuted: an 8-byte slice is compared with the 9-byte literal, so no Lyrics3v2 block is ever recognised (C35_never_recognised gives the actual result for every stream)."
  },
  {
   "property": "C36",
   "status": "partial",
   "theorems": [
    "C36_normal_partial",
    "C36_special_partial",
    "C36_out_of_range_refuted",
    "C36_sign_refuted",
    "C36_unnormal_refuted",
    "C36_infinity_refuted"
   ],
   "note": "Proved for normalised values in the f64 range and for zero, infinity (zero fraction) and NaN. Findings: exponents outside the range wrap into the sign bit; unnormalised fractions; infinity with the integer bit set becomes NaN."
  },
  {
   "property": "C37",
   "status": "proved",
   "theorems": [
    "C37_div_round",
    "C37_doc_note_refuted"
   ],
   "note": "The documentation's note that the result is never zero is refuted separately."
  },
  {
   "property": "C38",
   "status": "partial",
   "theorems": [
    "C38_interrupted_read_refuted"
   ],
   "note": "Refuted: the full statement is false of the code; nothing beyond C03 is proved for interrupted readers."
  },
  {
   "property": "C39",
   "status": "proved",
   "theorems": [
    "C39_read_follows_lacing"
   ],
   "note": ""
  },
  {
   "property": "C40",
   "status": "proved",
   "theorems": [
    "C40_read_count_prefix"
   ],
   "note": ""
  },
  {
   "property": "C41",
   "status": "proved",
   "theorems": [
    "C41_read_total"
   ],
   "note": ""
  },
  {
   "property": "C42",
   "status": "partial",
   "theorems": [
    "C42_error_byte_index_refuted",
    "C42_error_byte_index_partial"
   ],
   "note": "Finding: valid_up_to is a character index."
  },
  {
   "property": "C43",
   "status": "proved",
   "theorems": [
    "C43_utf8_decode_exact"
   ],
   "note": ""
  },
  {
   "property": "C44",
   "status": "proved",
   "theorems": [
    "C44_utf16_maybe_bom"
   ],
   "note": ""
  },
  {
   "property": "C45",
   "status": "partial",
   "theorems": [
    "C45_strict_mode_reads_own_output_refuted",
    "C45_strict_mode_reads_own_output_partial"
   ],
   "note": "Finding: tags without year."
  },
  {
   "property": "C46",
   "status": "partial",
   "theorems": [
    "C46_set_track_refuted",
    "C46_accessors_partial"
   ],
   "note": "Finding: set_track keeps only the low 8 bits."
  },
  {
   "property": "C47",
   "status": "proved",
   "theorems": [
    "C47_parse_total"
   ],
   "note": ""
  },
  {
   "property": "C48",
   "status": "proved",
   "theorems": [
    "C48_strict_sound",
    "C48_strict_complete",
    "C48_normal_form"
   ],
   "note": ""
  },
  {
   "property": "C49",
   "status": "partial",
   "theorems": [
    "C49_lenient_partial",
    "C49_lenient_refuted"
   ],
   "note": "Finding: a bare digit in the last field is silently dropped."
  },
  {
   "property": "C50",
   "status": "proved",
   "theorems": [
    "C50_stored_rating"
   ],
   "note": ""
  },
  {
   "property": "C51",
   "status": "partial",
   "theorems": [
    "C51_end_of_tag_partial",
    "C51_full_tag_size_partial",
    "C51_end_of_tag_refuted",
    "C51_full_tag_size_refuted"
   ],
   "note": "Finding: extended header counted twice. Proved without extended header."
  },
  {
   "property": "C52",
   "status": "partial",
   "theorems": [
    "C52_ext24_partial",
    "C52_update_flag_refuted",
    "C52_ext23_never",
    "C52_ext23_unsync_refuted"
   ],
   "note": "Findings: ID3v2.4 update flag, every ID3v2.3 extended header, unsynchronised ID3v2.3 extended header. Proved for ID3v2.4 without update flag."
  },
  {
   "property": "C53",
   "status": "partial",
   "theorems": [
    "C53_unchanged_partial",
    "C53_unchanged_refuted",
    "C53_bad_extended_header_refuted"
   ],
   "note": "Findings: fails on streams shorter than 10 bytes; moves after extended header errors."
  },
  {
   "property": "C54",
   "status": "proved",
   "theorems": [
    "C54_junk_search",
    "C54_junk_then_tag"
   ],
   "note": ""
  },
  {
   "property": "C55",
   "status": "partial",
   "theorems": [
    "C55_new_checked_partial",
    "C55_id3v1_never",
    "C55_new_checked_refuted"
   ],
   "note": "Finding: new_checked never accepts anything for ID3v1. Proved for the other types."
  },
  {
   "property": "C56",
   "status": "partial",
   "theorems": [
    "C56_flac_picture",
    "C56_unrestricted_refuted"
   ],
   "note": "Proved for representable pictures (no empty description, canonical type and MIME type, sizes below 2^32); refuted without."
  },
  {
   "property": "C57",
   "status": "proved",
   "theorems": [
    "C57_flac_picture_total"
   ],
   "note": ""
  },
  {
   "property": "C58",
   "status": "partial",
   "theorems": [
    "C58_ape_picture_partial",
    "C58_ape_description_refuted",
    "C58_ape_read_total"
   ],
   "note": "Finding: the description is written as UTF-8 and read as Latin-1. Proved for ASCII descriptions; totality proved for all input."
  },
  {
   "property": "C59",
   "status": "partial",
   "theorems": [
    "C59_png_partial",
    "C59_png_palette",
    "C59_png_grey_alpha_refuted",
    "C59_png_total"
   ],
   "note": "Finding: greyscale with alpha reports depth times 4. Proved for all other colour types; totality for all input."
  },
  {
   "property": "C60",
   "status": "partial",
   "theorems": [
    "C60_jpeg_partial",
    "C60_jpeg_total_refuted"
   ],
   "note": "Findings: panics on a segment length below 2 and on precision times components above 255 (checked arithmetic). Proved for well-formed files."
  },
  {
   "property": "C61",
   "status": "proved",
   "theorems": [
    "C61_picture_types"
   ],
   "note": ""
  },
  {
   "property": "C62",
   "status": "proved",
   "theorems": [
    "C62_sniff"
   ],
   "note": ""
  },
  {
   "property": "C63",
   "status": "proved",
   "theorems": [
    "C63_supported_items"
   ],
   "note": ""
  },
  {
   "property": "C64",
   "status": "partial",
   "theorems": [
    "C64_text",
    "C64_number",
    "C64_date_partial",
    "C64_date_refuted",
    "C64_support"
   ],
   "note": "Text and numbers proved; dates proved for valid timestamps, refuted for others (set_date accepts them)."
  },
  {
   "property": "C65",
   "status": "partial",
   "theorems": [
    "C65_id3v1_roundtrip_partial",
    "C65_unrestricted_refuted"
   ],
   "note": "Proved for genres in the table (and numbers within their Rust type); genre codes above 191 are lost."
  },
  {
   "property": "C66",
   "status": "partial",
   "theorems": [
    "C66_same_fields_partial",
    "C66_first_artist_refuted",
    "C66_locator_refuted"
   ],
   "note": "Findings: with two artists before the title the conversion takes the second artist; locators are taken by one path only. Proved with at most one text item per field."
  },
  {
   "property": "C67",
   "status": "partial",
   "theorems": [
    "C67_read_only_refuted",
    "C67_never_read_only"
   ],
   "note": "Refuted: the flag is written but never read; no tag read is ever read-only."
  },
  {
   "property": "C68",
   "status": "partial",
   "theorems": [
    "C68_respect_read_only_refuted",
    "C68_old_items_irrelevant"
   ],
   "note": "Refuted: read-only items of the old tag are always dropped; what is written does not depend on the old items."
  },
  {
   "property": "C69",
   "status": "partial",
   "theorems": [
    "C69_save_partial",
    "C69_no_header_refuted",
    "C69_unread_tag_refuted",
    "C69_overlap_refuted"
   ],
   "note": "Proved for audio + (no tag or a tag written by lofty, below 2^32 bytes) + optional ID3v1 tag, possibly after an ID3v2 tag. Refuted: a version 2 tag without header makes saving delete 32 bytes of audio; with read_tags(false) a second tag is appended; a tag starting 8 bytes into the file cuts the new tag or panics."
  },
  {
   "property": "C70",
   "status": "partial",
   "theorems": [
    "C70_read_tag_total",
    "C70_read_file_refuted"
   ],
   "note": "Proved for read_ape_tag. Refuted for ApeFile::read_from: with an ID3v2 tag in front, a footer claiming the whole file underflows the stream length."
  },
  {
   "property": "C71",
   "status": "partial",
   "theorems": [
    "C71_crash_refuted",
    "C71_complete"
   ],
   "note": "Refuted for every successful save: the file is empty after the first operation. Without a crash the content is as computed."
  },
  {
   "property": "C72",
   "status": "partial",
   "theorems": [
    "C72_leading_tag_unreadable",
    "C72_leading_tag_refuted",
    "C72_leading_tag_saved_refuted"
   ],
   "note": "Refuted: no file starting with an APE tag can be read, and saving adds a second tag."
  },
  {
   "property": "C73",
   "status": "partial",
   "theorems": [
    "C73_split_merge_partial",
    "C73_texts_partial",
    "C73_pictures_refuted",
    "C73_fields_refuted"
   ],
   "note": "Proved for plain keys (not track, disc, movement, compilation), table spelling and items that are not read-only. Refuted: pictures never come back, a year becomes a recording date, the read-only flag of items and non-numeric tracks are lost."
  },
  {
   "property": "C74",
   "status": "partial",
   "theorems": [
    "C74_same_items_partial",
    "C74_multi_value_refuted",
    "C74_pictures_refuted"
   ],
   "note": "Proved for one value per key without pictures, pairs and flag. Refuted: of several values only the last can be read back; pictures are not written."
  },
  {
   "property": "C75",
   "status": "partial",
   "theorems": [
    "C75_finds_last",
    "C75_position_refuted"
   ],
   "note": "The search itself is proved for all inputs; refuted: without a match the reader is not back where it was."
  },
  {
   "property": "C76",
   "status": "proved",
   "theorems": [
    "C76_replace_range",
    "C76_as_used"
   ],
   "note": "For every buffer size, including the one used."
  },
  {
   "property": "C77",
   "status": "partial",
   "theorems": [
    "C77_crash_atomic_refuted",
    "C77_crash_keeps_tail_refuted",
    "C77_front_is_safe"
   ],
   "note": "Refuted: bytes after the range can be lost. Bytes before the range are safe at every crash point."
  },
  {
   "property": "C78",
   "status": "partial",
   "theorems": [
    "C78_packet_roundtrip_partial",
    "C78_empty_left_out",
    "C78_unrestricted_refuted",
    "C78_leading_zero_refuted"
   ],
   "note": "Proved for non-empty values without trailing null, valid names, and names without special treatment; with conversions on also TRACKNUMBER and DISCNUMBER, each once, as decimals without leading zeros or as texts that are no number. Refuted: empty values are dropped, 01 becomes 1."
  },
  {
   "property": "C79",
   "status": "partial",
   "theorems": [
    "C79_pair",
    "C79_kept",
    "C79_all_kept_refuted"
   ],
   "note": "The pair and the kept texts are proved from every state. Refuted: a second TRACKNUMBER field replaces the first."
  },
  {
   "property": "C80",
   "status": "partial",
   "theorems": [
    "C80_read_total_partial",
    "C80_read_total_refuted"
   ],
   "note": "Refuted: COVERART=QUJD panics. Any panic comes from such a field, with cover art reading on."
  },
  {
   "property": "C81",
   "status": "partial",
   "theorems": [
    "C81_get",
    "C81_insert",
    "C81_push",
    "C81_numbers",
    "C81_date_partial",
    "C81_independent_partial",
    "C81_len",
    "C81_contains",
    "C81_other_fields_refuted",
    "C81_date_refuted"
   ],
   "note": "Dates must be valid (C64); independence holds for fields with one value, and up to order in general (C82). Refuted: setting the date can change which value of another field comes first; a day without a month is lost."
  },
  {
   "property": "C82",
   "status": "partial",
   "theorems": [
    "C82_remove_partial",
    "C82_other_fields_refuted",
    "C82_set_track_refuted"
   ],
   "note": "Refuted: removing one field swaps others, so another name can read differently afterwards; set_track does this too."
  },
  {
   "property": "C83",
   "status": "partial",
   "theorems": [
    "C83_names_partial",
    "C83_reachable_refuted"
   ],
   "note": "Refuted: a comment beginning with '=' is kept under the empty name."
  },
  {
   "property": "C84",
   "status": "partial",
   "theorems": [
    "C84_merge_partial",
    "C84_encoder_partial",
    "C84_order_refuted"
   ],
   "note": "Plain keys only. With an encoder the fields are permuted: the first artist can change. Pictures below eight bytes are dropped."
  },
  {
   "property": "C85",
   "status": "partial",
   "theorems": [
    "C85_split_merge_partial",
    "C85_order_refuted",
    "C85_encoder_refuted",
    "C85_rating_refuted",
    "C85_pictures_refuted"
   ],
   "note": "Refuted: order, vendor with an ENCODER field, RATING without address, stored picture dimensions, small pictures."
  },
  {
   "property": "C86",
   "status": "partial",
   "theorems": [
    "C86_direct_partial",
    "C86_direct_refuted"
   ],
   "note": "Refuted: the encoder is stored twice; flags and ratings are stored raw."
  },
  {
   "property": "C87",
   "status": "partial",
   "theorems": [
    "C87_insert",
    "C87_icons_unique",
    "C87_failure_refuted",
    "C87_set_partial",
    "C87_set_refuted",
    "C87_remove_type"
   ],
   "note": "Refuted: a failed insertion has removed the old icon; set_picture can create a second icon."
  },
  {
   "property": "C88",
   "status": "proved",
   "theorems": [
    "C88_block_roundtrip"
   ],
   "note": ""
  },
  {
   "property": "C89",
   "status": "proved",
   "theorems": [
    "C89_save",
    "C89_nothing"
   ],
   "note": "The comment blocks already present must hold a vendor string; the encoded blocks must be below 16 MiB."
  },
  {
   "property": "C90",
   "status": "partial",
   "theorems": [
    "C90_roundtrip_partial",
    "C90_vendor_refuted",
    "C90_tagged_file"
   ],
   "note": "For tags as in C78 and pictures as in C56. Refuted: the vendor of the tag is ignored if the file has comments."
  },
  {
   "property": "C91",
   "status": "partial",
   "theorems": [
    "C91_read_total_partial",
    "C91_read_total_refuted",
    "C91_write_total"
   ],
   "note": "Saving never panics. Reading panics only through COVERART fields (C80)."
  },
  {
   "property": "C92",
   "status": "partial",
   "theorems": [
    "C92_removed_is_saved_refuted",
    "C92_empty_tag_clears_partial"
   ],
   "note": "Refuted: without tag and pictures nothing is written, the old ones stay in the file. An emptied tag clears them."
  },
  {
   "property": "C93",
   "status": "proved",
   "theorems": [
    "C93_padding_absorbs"
   ],
   "note": ""
  },
  {
   "property": "C94",
   "status": "proved",
   "theorems": [
    "C94_properties"
   ],
   "note": "Files below 2^61 bytes."
  },
  {
   "property": "C95",
   "status": "proved",
   "theorems": [
    "C95_save"
   ],
   "note": "Identification and setup packets must not be empty. The length of the file is bounded by the 32-bit sequence numbers."
  },
  {
   "property": "C96",
   "status": "partial",
   "theorems": [
    "C96_after_junk_refuted",
    "C96_shared_page_refuted",
    "C96_other_streams_refuted",
    "C96_opus_extra_refuted"
   ],
   "note": "Refuted in four ways; C95 is what holds."
  },
  {
   "property": "C97",
   "status": "proved",
   "theorems": [
    "C97_crash"
   ],
   "note": "The file is truncated before it is written: a crash can leave nothing."
  },
  {
   "property": "C98",
   "status": "partial",
   "theorems": [
    "C98_read_back",
    "C98_vendor_refuted"
   ],
   "note": "For tags as in C78. Refuted: the vendor of the tag is ignored."
  },
  {
   "property": "C99",
   "status": "proved",
   "theorems": [
    "C99_idempotent"
   ],
   "note": "For files as in C95."
  },
  {
   "property": "C100",
   "status": "partial",
   "theorems": [
    "C100_last_page",
    "C100_last_page_plain",
    "C100_fake_page_refuted",
    "C100_near_end_refuted"
   ],
   "note": "Refuted: page checksums are not compared, so packet bytes can pose as a page; a pattern in the last 26 bytes makes the search fail."
  },
  {
   "property": "C101",
   "status": "proved",
   "theorems": [
    "C101_opus",
    "C101_vorbis",
    "C101_speex"
   ],
   "note": "For files in which the last page can be found and the duration is positive."
  },
  {
   "property": "C102",
   "status": "partial",
   "theorems": [
    "C102_read_total_partial",
    "C102_opus_channels_refuted",
    "C102_opus_short_refuted",
    "C102_speex_short_refuted"
   ],
   "note": "Panics: COVERART fields (C80), Opus with no or more than eight channels, Opus and Speex shorter than half a millisecond, durations near 2^64."
  },
  {
   "property": "C103",
   "status": "partial",
   "theorems": [
    "C103_all_chunks",
    "C103_well_formed",
    "C103_pad_refuted"
   ],
   "note": "Refuted for a pad byte that makes an identifier with the following bytes."
  },
  {
   "property": "C104",
   "status": "proved",
   "theorems": [
    "C104_roundtrip"
   ],
   "note": "For values that do not end with a null character; empty values are not written."
  },
  {
   "property": "C105",
   "status": "partial",
   "theorems": [
    "C105_new_list",
    "C105_list_replaced",
    "C105_read_back",
    "C105_second_list_refuted",
    "C105_odd_list_refuted",
    "C105_panic_refuted"
   ],
   "note": "Refuted: a second list stays, an odd list leaves its pad byte behind, three kinds of files make it panic."
  },
  {
   "property": "C106",
   "status": "partial",
   "theorems": [
    "C106_added",
    "C106_moved",
    "C106_last",
    "C106_nothing_to_remove",
    "C106_removed",
    "C106_growth_refuted",
    "C106_growth_example",
    "C106_junk_refuted",
    "C106_junk_example"
   ],
   "note": "Refuted for every growing tag at the end of the file (size field wrong or panic) and for every shrinking tag replaced in the middle of a WAV file with padding (JUNK chunk too large by 8)."
  },
  {
   "property": "C107",
   "status": "partial",
   "theorems": [
    "C107_roundtrip",
    "C107_odd_comment_refuted"
   ],
   "note": "Refuted: after a comment of odd length the next is misread. Empty lists of annotations and comments are read as none."
  },
  {
   "property": "C108",
   "status": "partial",
   "theorems": [
    "C108_new_text",
    "C108_text_replaced",
    "C108_read_back",
    "C108_trailing_refuted"
   ],
   "note": "Refuted: up to 7 bytes behind the FORM chunk are counted into its size."
  },
  {
   "property": "C109",
   "status": "partial",
   "theorems": [
    "C109_riff_refuted",
    "C109_id3_refuted",
    "C109_aiff_refuted",
    "C109_last_chunk_safe"
   ],
   "note": "Refuted for every save of INFO lists and text chunks; proved for an ID3v2 chunk at the end."
  },
  {
   "property": "C110",
   "status": "partial",
   "theorems": [
    "C110_pcm",
    "C110_file",
    "C110_channels_refuted"
   ],
   "note": "For other files than PCM and float see C234."
  },
  {
   "property": "C111",
   "status": "partial",
   "theorems": [
    "C111_properties",
    "C111_bitrates",
    "C111_nearest",
    "C111_duration_refuted",
    "C111_rate_refuted"
   ],
   "note": "Proved for sample rates that are whole numbers. The bit rates are within 1/2 + 2^-17 of the exact value, which is the nearest whole number unless that is closer than this to a tie."
  },
  {
   "property": "C112",
   "status": "proved",
   "theorems": [
    "C112_wav",
    "C112_aiff"
   ],
   "note": "For WAV, file lengths below 2^57. The ID3v2 parser is a parameter that must not panic."
  },
  {
   "property": "C113",
   "status": "partial",
   "theorems": [
    "C113_insert",
    "C113_remove",
    "C113_bad_key",
    "C113_case_refuted",
    "C113_duplicate_refuted"
   ],
   "note": "Refuted for keys in other case and for lists with duplicate keys."
  },
  {
   "property": "C114",
   "status": "partial",
   "theorems": [
    "C114_builds",
    "C114_roundtrip",
    "C114_utf16_refuted",
    "C114_empty_refuted",
    "C114_bool_refuted"
   ],
   "note": "Refuted for UTF-16 text, empty values and booleans outside the five flag items."
  },
  {
   "property": "C115",
   "status": "partial",
   "theorems": [
    "C115_unsigned",
    "C115_signed",
    "C115_one_byte_refuted"
   ],
   "note": "Refuted for every negative number in one byte."
  },
  {
   "property": "C116",
   "status": "proved",
   "theorems": [
    "C116_saved",
    "C116_read_back"
   ],
   "note": "For files below 4 GiB with 32-bit atom sizes, a padding of 0 or at least 8 bytes."
  },
  {
   "property": "C117",
   "status": "partial",
   "theorems": [
    "C117_offsets",
    "C117_tables",
    "C117_co64_refuted",
    "C117_fragments_refuted"
   ],
   "note": "Refuted for co64 tables (the entry count is read from the first offset) and fragments (the header is never found)."
  },
  {
   "property": "C118",
   "status": "partial",
   "theorems": [
    "C118_udta_added",
    "C118_udta_read_back",
    "C118_meta_added",
    "C118_offsets_refuted"
   ],
   "note": "Refuted: media data behind moov moves and no table is changed."
  },
  {
   "property": "C119",
   "status": "proved",
   "theorems": [
    "C119_removed"
   ],
   "note": ""
  },
  {
   "property": "C120",
   "status": "partial",
   "theorems": [
    "C120_tree",
    "C120_extended_refuted",
    "C120_to_end_refuted"
   ],
   "note": "Refuted: a file with an atom with a 64-bit size before moov cannot be read at all; the length of an atom of size 0 is 8 too small."
  },
  {
   "property": "C121",
   "status": "partial",
   "theorems": [
    "C121_rewrites",
    "C121_crash_refuted"
   ],
   "note": "Refuted for every save: the file is emptied first."
  },
  {
   "property": "C122",
   "status": "partial",
   "theorems": [
    "C122_first_replaced_refuted"
   ],
   "note": "Refuted for all such files: the first atom, usually the handler, is replaced or removed."
  },
  {
   "property": "C123",
   "status": "partial",
   "theorems": [
    "C123_swallowed_refuted"
   ],
   "note": "Refuted for every such item followed by another."
  },
  {
   "property": "C124",
   "status": "partial",
   "theorems": [
    "C124_track_tag_refuted"
   ],
   "note": "Refuted: what follows mdia in a track is taken for a child of moov."
  },
  {
   "property": "C125",
   "status": "partial",
   "theorems": [
    "C125_remove",
    "C125_replace",
    "C125_other_partial",
    "C125_other_refuted",
    "C125_order_refuted"
   ],
   "note": "Refuted: with two artists, setting the title changes the artist, as removal swaps items."
  },
  {
   "property": "C126",
   "status": "partial",
   "theorems": [
    "C126_text",
    "C126_numbers",
    "C126_large_refuted",
    "C126_remove_total_refuted",
    "C126_date",
    "C126_utf16_date_refuted"
   ],
   "note": "Refuted for numbers above 65535 (cut to 16 bits), for removing a total (0 stays) and for UTF-16 dates."
  },
  {
   "property": "C127",
   "status": "proved",
   "theorems": [
    "C127_flags"
   ],
   "note": ""
  },
  {
   "property": "C128",
   "status": "proved",
   "theorems": [
    "C128_rating"
   ],
   "note": ""
  },
  {
   "property": "C129",
   "status": "proved",
   "theorems": [
    "C129_insert",
    "C129_picture"
   ],
   "note": ""
  },
  {
   "property": "C130",
   "status": "partial",
   "theorems": [
    "C130_remove_pictures_partial",
    "C130_remains_refuted",
    "C130_text_lost_refuted"
   ],
   "note": "Refuted for items whose first value is of another sort than a later one."
  },
  {
   "property": "C131",
   "status": "partial",
   "theorems": [
    "C131_split",
    "C131_numbers",
    "C131_picture_dropped_refuted",
    "C131_text_dropped_refuted",
    "C131_text_number_refuted"
   ],
   "note": "Refuted: a picture in another item and a text in the cover item are dropped; a track number stored as text becomes the track total."
  },
  {
   "property": "C132",
   "status": "partial",
   "theorems": [
    "C132_texts",
    "C132_pictures",
    "C132_numbers",
    "C132_rating",
    "C132_rest",
    "C132_locator_refuted",
    "C132_large_number_refuted"
   ],
   "note": "Refuted: locator items and numbers that do not fit in 16 bits are dropped."
  },
  {
   "property": "C133",
   "status": "partial",
   "theorems": [
    "C133_texts",
    "C133_same_texts",
    "C133_pictures",
    "C133_rest",
    "C133_values",
    "C133_numbers",
    "C133_rating",
    "C133_one_atom_refuted",
    "C133_title_refuted",
    "C133_not_preserved_refuted"
   ],
   "note": "Refuted as planned: a title followed by a number in the same item is no longer the title afterwards."
  },
  {
   "property": "C134",
   "status": "partial",
   "theorems": [
    "C134_texts",
    "C134_pictures",
    "C134_keys",
    "C134_numbers",
    "C134_rating",
    "C134_zero_refuted"
   ],
   "note": "Refuted for number 0. Unsynchronised lyrics come back as lyrics (C134_keys)."
  },
  {
   "property": "C135",
   "status": "proved",
   "theorems": [
    "C135_ids",
    "C135_upgrades"
   ],
   "note": ""
  },
  {
   "property": "C136",
   "status": "proved",
   "theorems": [
    "C136_written",
    "C136_read"
   ],
   "note": ""
  },
  {
   "property": "C137",
   "status": "proved",
   "theorems": [
    "C137_header"
   ],
   "note": ""
  },
  {
   "property": "C138",
   "status": "proved",
   "theorems": [
    "C138_content",
    "C138_written"
   ],
   "note": ""
  },
  {
   "property": "C139",
   "status": "proved",
   "theorems": [
    "C139_tag",
    "C139_written"
   ],
   "note": ""
  },
  {
   "property": "C140",
   "status": "proved",
   "theorems": [
    "C140_tag",
    "C140_old_forms",
    "C140_genres",
    "C140_odd_date",
    "C140_parentheses"
   ],
   "note": "C140_old_forms excludes ID3v2.3 frames named TDAT and TIME."
  },
  {
   "property": "C141",
   "status": "partial",
   "theorems": [
    "C141_date_removed",
    "C141_early_year_refuted",
    "C141_parenthesis_refuted",
    "C141_people_refuted",
    "C141_musicians_refuted"
   ],
   "note": "Refuted: a year below 1000 is written so that a strict reader refuses the file and others lose the date; a full date in an ID3v2.3 tag is removed while reading (for every list of frames); a genre that ends in a parenthesis breaks the list; the last pair of people is dropped if its value is empty; musicians become involved people."
  },
  {
   "property": "C142",
   "status": "proved",
   "theorems": [
    "C142_read",
    "C142_insert",
    "C142_kept",
    "C142_single",
    "C142_several",
    "C142_says",
    "C142_empty"
   ],
   "note": ""
  },
  {
   "property": "C143",
   "status": "partial",
   "theorems": [
    "C143_total",
    "C143_position",
    "C143_depth",
    "C143_compressed_refuted"
   ],
   "note": "C143_total: no panic for any content that does not grow when decompressed. The recursion is not bounded: chapters in chapters need 27 bytes each (C143_depth), and a compressed chapter whose decompressed content holds the same chapter is never finished (C143_compressed_refuted; whether such a stream exists is a question about the zlib format, which is not modelled)."
  },
  {
   "property": "C144",
   "status": "partial",
   "theorems": [
    "C144_extended_refuted",
    "C144_unsync_refuted"
   ],
   "note": "Refuted: every ID3v2.4 tag with a checksum or restrictions is read back without frames, because the flag for the extended header is not written; the flag for unsynchronisation is written without unsynchronising. C139 and C140 hold for the other flags."
  },
  {
   "property": "C145",
   "status": "partial",
   "theorems": [
    "C145_unsync_refuted",
    "C145_length_refuted",
    "C145_compression_refuted",
    "C145_encrypted_refuted"
   ],
   "note": "Refuted for each of these flags. C138 and C139 hold for the other flags."
  },
  {
   "property": "C146",
   "status": "partial",
   "theorems": [
    "C146_bad_name",
    "C146_timestamp",
    "C146_damaged_refuted"
   ],
   "note": "Frames with bad names are skipped. Refuted for contents: an unknown text encoding makes the whole tag unreadable in every mode."
  },
  {
   "property": "C147",
   "status": "partial",
   "theorems": [
    "C147_place",
    "C147_link_refuted",
    "C147_next_frame_refuted",
    "C147_comment_refuted"
   ],
   "note": "Proved for all kinds except links, and comments and lyrics in UTF-16. Refuted for those: what is behind the end of the text is taken for the next frame."
  },
  {
   "property": "C148",
   "status": "proved",
   "theorems": [
    "C148_replaced",
    "C148_added",
    "C148_again"
   ],
   "note": ""
  },
  {
   "property": "C149",
   "status": "partial",
   "theorems": [
    "C149_crash_refuted",
    "C149_letters_refuted",
    "C149_extended_refuted",
    "C149_window_refuted"
   ],
   "note": "Refuted: after a crash the file may be empty; the letters ID3 in the audio (with no tag) lose what is before them; an old tag with an extended header loses as many bytes of audio; with fewer than 3 junk bytes allowed the old tag is kept behind the new one."
  },
  {
   "property": "C150",
   "status": "partial",
   "theorems": [
    "C150_unwritable_refuted",
    "C150_read_refuted",
    "C150_language_refuted"
   ],
   "note": "Refuted for ownership frames and event timing codes (always), and for comments in a language that is not three letters."
  },
  {
   "property": "C151",
   "status": "partial",
   "theorems": [
    "C151_flag",
    "C151_genre",
    "C151_genre_high_refuted",
    "C151_name_overrun"
   ],
   "note": "Only the low byte of a genre number is looked at: 257 is read as 1."
  },
  {
   "property": "C152",
   "status": "proved",
   "theorems": [
    "C152_merged"
   ],
   "note": ""
  },
  {
   "property": "C153",
   "status": "partial",
   "theorems": [
    "C153_set_text",
    "C153_remove",
    "C153_values",
    "C153_hidden_refuted",
    "C153_order_refuted"
   ],
   "note": "Proved when the tag has no frame of that name or one that is a text frame. A frame of another kind with that name, as an encrypted one, stays first and hides the text. Removing keeps the other frames but not their order."
  },
  {
   "property": "C154",
   "status": "partial",
   "theorems": [
    "C154_set_number",
    "C154_set_total",
    "C154_remove_total",
    "C154_total_only_refuted",
    "C154_invented_refuted",
    "C154_total_removed_refuted"
   ],
   "note": "Setting a total without a number sets the number to 0; removing the number removes the total; \"/10\" is read as number 10."
  },
  {
   "property": "C155",
   "status": "partial",
   "theorems": [
    "C155_set_refuted",
    "C155_old_refuted",
    "C155_get",
    "C155_remove",
    "C155_saved",
    "C155_v23_refuted"
   ],
   "note": "set_date makes a text frame, which date does not see: after set_date there is no date, or still the old one; and in a 2.3 tag the date is not saved."
  },
  {
   "property": "C156",
   "status": "proved",
   "theorems": [
    "C156_set",
    "C156_language",
    "C156_remove"
   ],
   "note": ""
  },
  {
   "property": "C157",
   "status": "partial",
   "theorems": [
    "C157_set",
    "C157_number_refuted"
   ],
   "note": "Proved for texts of more than three bytes without NUL that do not begin with a parenthesis; false for numbers, RX, CR and the empty text."
  },
  {
   "property": "C158",
   "status": "partial",
   "theorems": [
    "C158_frames",
    "C158_saved",
    "C158_numbers",
    "C158_movement_refuted",
    "C158_head_refuted",
    "C158_number_refuted",
    "C158_description_refuted",
    "C158_encoding_refuted"
   ],
   "note": "The version and the flags are lost when no frame is kept aside; numbers like A1 and the numbers of movements are lost; a second value of a comment loses the description; encodings and frame flags are not kept. The second part excludes URL frames, see C161."
  },
  {
   "property": "C159",
   "status": "partial",
   "theorems": [
    "C159_items",
    "C159_lost_refuted",
    "C159_shared_refuted",
    "C159_total_refuted",
    "C159_later_refuted",
    "C159_gain_refuted"
   ],
   "note": "Six keys are accepted and dropped; three come back as other keys; a total without a number gets the number 0; later values of keys with one value are dropped."
  },
  {
   "property": "C160",
   "status": "partial",
   "theorems": [
    "C160_exact",
    "C160_refused_refuted",
    "C160_accepted_refuted"
   ],
   "note": "Exactly the six keys in LOST are accepted and give no frame, and exactly the six in HIDDEN give a frame and are refused."
  },
  {
   "property": "C161",
   "status": "partial",
   "theorems": [
    "C161_same",
    "C161_tag",
    "C161_locator_refuted",
    "C161_people_refuted"
   ],
   "note": "Proved without locators, equal pictures and people both in the items and kept aside. URLs are lost when a Tag is saved; two TIPL frames are written."
  },
  {
   "property": "C162",
   "status": "partial",
   "theorems": [
    "C162_verified",
    "C162_unsaved_refuted"
   ],
   "note": "False for the keys Work and FlagPodcast: with one of them the whole tag cannot be saved."
  },
  {
   "property": "C163",
   "status": "partial",
   "theorems": [
    "C163_tag",
    "C163_unsync23",
    "C163_artist_refuted",
    "C163_writer_refuted"
   ],
   "note": "Proved for all names but two: TOA (original artist) is read as TOAL (original album), TXT (text writer) as TOLY (original text writer)."
  },
  {
   "property": "C164",
   "status": "proved",
   "theorems": [
    "C164_decode",
    "C164_only"
   ],
   "note": ""
  },
  {
   "property": "C165",
   "status": "partial",
   "theorems": [
    "C165_length_partial",
    "C165_length_refuted"
   ],
   "note": "Proved but for Layer I at 44.1, 22.05 and 11.025 kHz, where it is false: the code does not round to slots of four bytes."
  },
  {
   "property": "C166",
   "status": "proved",
   "theorems": [
    "C166_first_sync"
   ],
   "note": ""
  },
  {
   "property": "C167",
   "status": "partial",
   "theorems": [
    "C167_found_partial",
    "C167_file_partial",
    "C167_byte_before_refuted",
    "C167_single_refuted",
    "C167_end_refuted"
   ],
   "note": "Proved for two frames or more. A byte 0xFF before the first frame hides it; a single frame is not found; something like a sync in the last three bytes of the file is an error. Missing: ID3v2 tags with an extended header. For an APE tag before the audio see C171."
  },
  {
   "property": "C168",
   "status": "partial",
   "theorems": [
    "C168_xing",
    "C168_vbri_partial",
    "C168_vbri_refuted"
   ],
   "note": "Proved for Xing and Info. VBRI is always 32 bytes after the frame header, but it is looked for where the Xing header would be, so it is found in MPEG 1 stereo only."
  },
  {
   "property": "C169",
   "status": "partial",
   "theorems": [
    "C169_cbr",
    "C169_accuracy",
    "C169_vbr_refuted",
    "C169_short_refuted"
   ],
   "note": "Two short frames are an error. Without a VBR header the bit rate of the first frame is taken for all."
  },
  {
   "property": "C170",
   "status": "proved",
   "theorems": [
    "C170_total"
   ],
   "note": "Running out of fuel is a panic in the model, so this is also termination."
  },
  {
   "property": "C171",
   "status": "partial",
   "theorems": [
    "C171_tags_partial",
    "C171_with_props_partial",
    "C171_leading_ape",
    "C171_footer_refuted"
   ],
   "note": "Proved if only the first ID3v2 tag has a footer: that of a later one is not skipped, and tags behind it are not seen. Missing: extended headers."
  },
  {
   "property": "C172",
   "status": "partial",
   "theorems": [
    "C172_independent_partial",
    "C172_ape_refuted",
    "C172_leading_refuted"
   ],
   "note": "Proved without an APE tag. With an APE tag that is not read the end of the audio is wrong by the size of the tag, or its start by 32 bytes if the tag is before the audio."
  },
  {
   "property": "C173",
   "status": "proved",
   "theorems": [
    "C173_file_properties",
    "C173_channels"
   ],
   "note": ""
  },
  {
   "property": "C174",
   "status": "partial",
   "theorems": [
    "C174_checksum",
    "C174_padding_refuted",
    "C174_restrictions_refuted",
    "C174_panic_refuted"
   ],
   "note": "Proved without padding and restrictions. Padding is not covered; with restrictions the first byte of the frames is not covered, and a tag none of whose frames can be written panics."
  },
  {
   "property": "C175",
   "status": "partial",
   "theorems": [
    "C175_channels_partial",
    "C175_bits",
    "C175_ones",
    "C175_peak_refuted",
    "C175_panic_refuted"
   ],
   "note": "Proved when the bit count fits the peak. The bit count of a longer peak is replaced by the number of leading ones of its bytes: unreadable in general, an overflow for 32 bytes of 255."
  },
  {
   "property": "C176",
   "status": "partial",
   "theorems": [
    "C176_decode_partial",
    "C176_index",
    "C176_copyright_refuted",
    "C176_channels_refuted",
    "C176_layer_refuted"
   ],
   "note": "Proved for all fields but the copyright bit (the home bit is reported), configuration 7 (8 channels are reported as 7) and the speakers of configuration 4. Headers of MPEG layers I to III are taken as ADTS."
  },
  {
   "property": "C177",
   "status": "partial",
   "theorems": [
    "C177_found_partial",
    "C177_single_refuted",
    "C177_junk_refuted",
    "C177_end_refuted",
    "C177_small_refuted"
   ],
   "note": "Proved for at least two frames, junk and end without a sync, and a first frame whose bit rate is above 0. Refuted for one frame, for junk with the reserved sample rate index, for a sync in the last six bytes and for frames whose bit rate is below 1."
  },
  {
   "property": "C178",
   "status": "partial",
   "theorems": [
    "C178_formula_partial",
    "C178_long_refuted",
    "C178_bitrate"
   ],
   "note": "The formula of the code is proved: the mean of the bit rates of all frames but the last, in units of 1024 bits, and a stream that includes ten bytes per tag. With frames of one size the duration is proved to be at least 1.024 times too long, for every such file."
  },
  {
   "property": "C179",
   "status": "partial",
   "theorems": [
    "C179_total_partial",
    "C179_stuck_refuted"
   ],
   "note": "Proved for files without a header of an empty frame; a file with two of them in a row is read forever."
  },
  {
   "property": "C180",
   "status": "partial",
   "theorems": [
    "C180_tags_partial",
    "C180_independent_partial",
    "C180_title_refuted",
    "C180_frames_refuted",
    "C180_footer_refuted"
   ],
   "note": "Proved for tags of which only the first has a footer, and, when tags are not read, for files that do not begin with an ID3v2 tag. The content of a tag is not skipped when tags are not read: a UTF-16 title makes the file unreadable, and frames in a tag are taken for the audio. A tag after a second tag with a footer is lost."
  },
  {
   "property": "C181",
   "status": "partial",
   "theorems": [
    "C181_properties",
    "C181_multichannel_refuted"
   ],
   "note": "Proved for audio in one block. For audio in several blocks the channels and speakers are proved to be 0 whenever the file is read."
  },
  {
   "property": "C182",
   "status": "partial",
   "theorems": [
    "C182_rate",
    "C182_channels_refuted"
   ],
   "note": "Sample rates of three bytes and DSD are proved. A channel sub-block at the end of a block makes reading fail, or in the other modes leaves all properties empty; before another sub-block it makes that one misread (C182_example_shifted). Of a sample rate of four bytes the last is ignored (C182_example_four)."
  },
  {
   "property": "C183",
   "status": "partial",
   "theorems": [
    "C183_duration",
    "C183_unknown",
    "C183_long_refuted"
   ],
   "note": "Proved for fewer than 2^32 - 1 samples; the bit rates are within 1/2 + 2^-17 of the exact value. Beyond, the upper byte of the number is ignored."
  },
  {
   "property": "C184",
   "status": "partial",
   "theorems": [
    "C184_total",
    "C184_ape_size_refuted"
   ],
   "note": "Proved for files without ID3v1 tag, without APE tag before it, or with one whose size fits. Otherwise the subtraction of the size of the APE tag can overflow."
  },
  {
   "property": "C185",
   "status": "proved",
   "theorems": [
    "C185_tags"
   ],
   "note": "For files of at least 32 bytes before the ID3v1 tag."
  },
  {
   "property": "C186",
   "status": "proved",
   "theorems": [
    "C186_properties",
    "C186_required",
    "C186_no_header",
    "C186_no_gain"
   ],
   "note": "For fewer than 2^54 samples, more samples than silence, packets of less than 2^45 bytes and bit rates below 2^32 kbit/s."
  },
  {
   "property": "C187",
   "status": "partial",
   "theorems": [
    "C187_fields",
    "C187_gain",
    "C187_negative_gain_refuted",
    "C187_encoder_refuted",
    "C187_duration_refuted"
   ],
   "note": "The fields and the bit rate are proved. The gain is within 1/2 of (64.82 dB - gain) * 256 for gains from 0.01 to 64.81 dB; a negative gain gives 0. The encoder's version is taken from the last byte of its word, not the first. The duration is that of all frames, with samples that are not heard: 9 ms too much without the gapless flag. Peaks go through a logarithm that is a parameter of the model."
  },
  {
   "property": "C188",
   "status": "partial",
   "theorems": [
    "C188_properties",
    "C188_bitrate_refuted"
   ],
   "note": "All but the bit rate is proved. The bit rate reported is at most 7/8 of the true one (for 20 frames and more), as it is divided by 1152 in place of 1000."
  },
  {
   "property": "C189",
   "status": "partial",
   "theorems": [
    "C189_total_partial",
    "C189_lone_frame_refuted",
    "C189_sv8_refuted"
   ],
   "note": "Proved for files of less than 2^45 bytes in which no MPCK is followed by packets with 2^54 samples or 2^45 bytes, nor MP+ by a header of one gapless frame without samples. These make reading panic."
  },
  {
   "property": "C190",
   "status": "partial",
   "theorems": [
    "C190_tags",
    "C190_untagged_refuted",
    "C190_version_refuted",
    "C190_bitrate_refuted",
    "C190_short_refuted"
   ],
   "note": "The tags are proved. The version is always said to be 8. Without reading tags, an APE tag longer than all before it by more than 32 bytes is an error, and the ID3v2 tag counts for the bit rate. Streams of less than 32 bytes before an ID3v1 tag are an error."
  },
  {
   "property": "C191",
   "status": "proved",
   "theorems": [
    "C191_duration",
    "C191_readable"
   ],
   "note": "For durations below 2^54 units; files with properties of the tag that can be read."
  },
  {
   "property": "C192",
   "status": "partial",
   "theorems": [
    "C192_mp4a",
    "C192_extended_partial",
    "C192_seven_refuted",
    "C192_usac_refuted",
    "C192_extended_refuted",
    "C192_rate_refuted",
    "C192_als",
    "C192_als_refuted"
   ],
   "note": "Proved for object types below 31, indexed rates and up to six channels, and for types 32 to 39 but 36 all except the channels. Eight channels (configuration 7) are reported as 7; type 42 as 35; with an extended type two channels as 64; a rate that is written out is wrong. For lossless audio (type 36) rate and channels are those of its own configuration, up to 255 channels; 256 lead to a panic, of more the lower eight bits are reported."
  },
  {
   "property": "C193",
   "status": "partial",
   "theorems": [
    "C193_alac",
    "C193_flac",
    "C193_alac_refuted"
   ],
   "note": "FLAC is proved with any atoms behind. ALAC is only recognised if its atom is the only one in the only sample entry."
  },
  {
   "property": "C194",
   "status": "partial",
   "theorems": [
    "C194_other",
    "C194_undescribed",
    "C194_second_refuted"
   ],
   "note": "Proved for the only entry. An entry behind it is read from the wrong place."
  },
  {
   "property": "C195",
   "status": "proved",
   "theorems": [
    "C195_overall",
    "C195_audio",
    "C195_average",
    "C195_no_data"
   ],
   "note": "For rates below 2^32 and durations of at least a millisecond; the average for object types below 31."
  },
  {
   "property": "C196",
   "status": "partial",
   "theorems": [
    "C196_terminates",
    "C196_bounds",
    "C196_endless_refuted",
    "C196_wide_refuted"
   ],
   "note": "All loops end for data of less than 2^32 - 8 bytes. An atom of size 0 with 2^32 bytes behind its header makes the search for moov go on forever. A media duration of 2^62 panics; so do a FLAC configuration of less than four bytes, an ALS stream of 256 channels and a freeform item with a 64-bit size that ends before its name (examples)."
  },
  {
   "property": "C197",
   "status": "partial",
   "theorems": [
    "C197_order_partial",
    "C197_order_refuted"
   ],
   "note": "Proved for orders with the media information last. If it comes before the handler, there is no audio track."
  },
  {
   "property": "C198",
   "status": "partial",
   "theorems": [
    "C198_magic",
    "C198_sound",
    "C198_long_head_refuted"
   ],
   "note": "Proved for every beginning; Ogg headers have to fit into one segment. An Opus header of 255 bytes or more (234 channels or more) is not recognised, or taken for AAC. MP4 sizes and Musepack 7 frame counts below 2^30."
  },
  {
   "property": "C199",
   "status": "partial",
   "theorems": [
    "C199_behind_tag",
    "C199_footer_refuted"
   ],
   "note": "Proved for tags without a footer and of revision 0. The footer is not skipped: a FLAC file behind a tag with one is not recognised."
  },
  {
   "property": "C200",
   "status": "proved",
   "theorems": [
    "C200_junk"
   ],
   "note": "The bytes are marked by no format and do not begin with ID3."
  },
  {
   "property": "C201",
   "status": "proved",
   "theorems": [
    "C201_position",
    "C201_local"
   ],
   "note": ""
  },
  {
   "property": "C202",
   "status": "partial",
   "theorems": [
    "C202_wav",
    "C202_aiff",
    "C202_flac",
    "C202_mp4_partial",
    "C202_mpeg_refuted",
    "C202_flac_refuted"
   ],
   "note": "Proved for WAV, AIFF, FLAC without a leading ID3v2 tag and MP4 with a first size below 2^30. MPEG files with 1023 zeros in front and FLAC files behind a tag with a footer are accepted by the readers and not recognised."
  },
  {
   "property": "C203",
   "status": "partial",
   "theorems": [
    "C203_extensions",
    "C203_case",
    "C203_custom",
    "C203_path",
    "C203_no_extension",
    "C203_list",
    "C203_list_refuted",
    "C203_custom_case_refuted"
   ],
   "note": "The extension wave is recognised but not in the published list. A resolver whose extension has a capital letter is never chosen."
  },
  {
   "property": "C204",
   "status": "proved",
   "theorems": [
    "C204_support",
    "C204_primary",
    "C204_custom",
    "C204_register"
   ],
   "note": ""
  },
  {
   "property": "C205",
   "status": "partial",
   "theorems": [
    "C205_probe",
    "C205_tagged_ignores",
    "C205_tagged_refuted",
    "C205_below_refuted"
   ],
   "note": "Proved for probes. TaggedFile::read_from guesses before it sets the options, so the limit is always 1024."
  },
  {
   "property": "C206",
   "status": "partial",
   "theorems": [
    "C206_insert",
    "C206_remove",
    "C206_change_type",
    "C206_change",
    "C206_clear",
    "C206_histories",
    "C206_remap_refuted"
   ],
   "note": "Proved for changes in place that keep the type of the tag. With Tag::re_map through tag_mut there are two tags of one type, and an inserted tag is not the one that is found."
  },
  {
   "property": "C207",
   "status": "partial",
   "theorems": [
    "C207_saved",
    "C207_total",
    "C207_cleared",
    "C207_atomic_refuted"
   ],
   "note": "It is not all or nothing: the type of the file is found again for every tag, and an error leaves the tags before it written. That the writers keep the type of the file is a premise."
  },
  {
   "property": "C208",
   "status": "partial",
   "theorems": [
    "C208_supported",
    "C208_unsupported",
    "C208_unknown",
    "C208_empty",
    "C208_mp4_refuted",
    "C208_ogg_refuted",
    "C208_flac_refuted",
    "C208_custom_refuted"
   ],
   "note": "Proved for tags with items or pictures in all built-in formats. An empty tag of a type that the format does not support is written as an empty tag of the format to MP4 and Ogg files, panics for FLAC; a file of a custom type always panics."
  },
  {
   "property": "C209",
   "status": "partial",
   "theorems": [
    "C209_readable",
    "C209_unsupported",
    "C209_path_refuted",
    "C209_path_error_refuted",
    "C209_path_name_refuted"
   ],
   "note": "Proved for open files. By path nothing is ever removed: the file is opened for reading only."
  },
  {
   "property": "C210",
   "status": "partial",
   "theorems": [
    "C210_fields",
    "C210_saved",
    "C210_flac",
    "C210_tagged",
    "C210_order",
    "C210_readonly_refuted",
    "C210_flac_readonly_refuted",
    "C210_flac_other_refuted"
   ],
   "note": "Proved if no tag of the file is of a read-only type. With one (an ID3v2 tag in FLAC, APE and Musepack files, an ID3v1 tag in Musepack files) saving always fails, behind the tags in front of it. FlacFile saved to a file of another format panics or writes to an Ogg file."
  },
  {
   "property": "C211",
   "status": "partial",
   "theorems": [
    "C211_bound",
    "C211_companion_refuted"
   ],
   "note": "A tag that only has format-specific items is written but dropped from memory."
  },
  {
   "property": "C212",
   "status": "partial",
   "theorems": [
    "C212_shown",
    "C212_roundtrip",
    "C212_back",
    "C212_unknown_refuted",
    "C212_alias_refuted"
   ],
   "note": "Proved for keys in the table. Items under other keys are lost, because the remainder of the split holds nothing, and ITRK comes back as IPRT."
  },
  {
   "property": "C213",
   "status": "partial",
   "theorems": [
    "C213_same",
    "C213_rating",
    "C213_rating_refuted",
    "C213_lost_refuted"
   ],
   "note": "Proved for tags without ratings. A converted tag has the text of the rating and not the number, and the number is not read as a rating again."
  },
  {
   "property": "C214",
   "status": "partial",
   "theorems": [
    "C214_roundtrip",
    "C214_of_tag",
    "C214_writer",
    "C214_order_refuted",
    "C214_comments_refuted",
    "C214_link_refuted"
   ],
   "note": "Proved but for the order: comments change their order if another item stands behind them, and with several artists or copyright messages some one is taken. Comments with time stamps become annotations. A title that is a link is converted but not written."
  },
  {
   "property": "C215",
   "status": "partial",
   "theorems": [
    "C215_text",
    "C215_number",
    "C215_date",
    "C215_case_refuted",
    "C215_track_refuted"
   ],
   "note": "Proved for lists without two keys that differ in case only. A list from a file with the key inam has no title by the accessor, though it contains it and its tag shows it; a number under ITRK is seen in the tag only."
  },
  {
   "property": "C216",
   "status": "partial",
   "theorems": [
    "C216_comment",
    "C216_counts",
    "C216_remove_refuted",
    "C216_empty_list_refuted"
   ],
   "note": "Proved for chunks without empty lists. Removing the comment leaves those with time stamps, of which the first is then read."
  },
  {
   "property": "C217",
   "status": "proved",
   "theorems": [
    "C217_wav",
    "C217_aiff"
   ],
   "note": "The WAV part is for tags without ratings (see C213)."
  },
  {
   "property": "C218",
   "status": "proved",
   "theorems": [
    "C218_layout",
    "C218_accepted",
    "C218_total"
   ],
   "note": ""
  },
  {
   "property": "C219",
   "status": "partial",
   "theorems": [
    "C219_roundtrip",
    "C219_v23_utf8_refuted",
    "C219_v23_utf16be_refuted"
   ],
   "note": "Proved for ID3v2.4, and for ISO-8859-1 and UTF-16 in ID3v2.3. There, frames with UTF-8 and UTF-16BE are written in UTF-16 but with their own encoding byte: with UTF-8 none of them can be read back, with UTF-16BE the bytes of the characters are swapped."
  },
  {
   "property": "C220",
   "status": "partial",
   "theorems": [
    "C220_roundtrip",
    "C220_total",
    "C220_mime_refuted"
   ],
   "note": "Proved for MIME types in ASCII. Others are written as UTF-8 and read as ISO-8859-1."
  },
  {
   "property": "C221",
   "status": "partial",
   "theorems": [
    "C221_roundtrip",
    "C221_total",
    "C221_eq_refuted"
   ],
   "note": "Round trip and totality proved. Frames with the same text are equal whatever their clips."
  },
  {
   "property": "C222",
   "status": "proved",
   "theorems": [
    "C222_table",
    "C222_scramble"
   ],
   "note": ""
  },
  {
   "property": "C223",
   "status": "proved",
   "theorems": [
    "C223_descriptor"
   ],
   "note": "Bit depths below 256; a larger one loses its upper byte."
  },
  {
   "property": "C224",
   "status": "proved",
   "theorems": [
    "C224_old_header"
   ],
   "note": ""
  },
  {
   "property": "C225",
   "status": "partial",
   "theorems": [
    "C225_duration_partial",
    "C225_no_rate",
    "C225_last_block_refuted"
   ],
   "note": "Proved when the last frame has two blocks or more. With one block, all the other frames are left out."
  },
  {
   "property": "C226",
   "status": "partial",
   "theorems": [
    "C226_bit_rate",
    "C226_overall_partial",
    "C226_overall_refuted",
    "C226_empty_refuted",
    "C226_covered_refuted"
   ],
   "note": "Proved for the audio bit rate, and for the overall bit rate of files that end with an APE tag that is read. Otherwise an ID3v1 tag does not count, without an APE tag 24 bytes of the audio neither. A file of one empty frame has the bit rate 2^32-1. The bytes that an APE tag claims for itself do not count, even if they are the audio."
  },
  {
   "property": "C227",
   "status": "partial",
   "theorems": [
    "C227_strict_partial",
    "C227_tolerant",
    "C227_channels_refuted"
   ],
   "note": "Proved below 256 channels. The upper byte of the number of channels is ignored: 257 channels are taken for mono in strict mode."
  },
  {
   "property": "C228",
   "status": "proved",
   "theorems": [
    "C228_total",
    "C228_complete",
    "C228_not_asked"
   ],
   "note": ""
  },
  {
   "property": "C229",
   "status": "partial",
   "theorems": [
    "C229_trailing",
    "C229_id3v1",
    "C229_ape",
    "C229_wav_info",
    "C229_aiff_text",
    "C229_id3_chunk",
    "C229_mp4",
    "C229_ogg",
    "C229_id3v2_replaced",
    "C229_id3v2_added",
    "C229_id3v2_removed",
    "C229_flac",
    "C229_short_size_refuted",
    "C229_whole_file_refuted",
    "C229_footer_refuted",
    "C229_hidden_refuted"
   ],
   "note": "Proved per writer: ID3v1 (also after a crash) and APE tags behind 36 bytes or more of audio; RIFF INFO; AIFF text; ID3v2 chunks when the size in the header is 4 or more; MP4 below 2^32 bytes; Ogg with a first packet of less than 255 bytes; FLAC, also behind an ID3v2 tag; ID3v2 tags without a footer in front of MPEG and AAC. Not proved: WavPack and Musepack beyond what holds for all tags at the end. It fails for a WAV file whose declared size is below 4 (the chunk is put in front of WAVE), for an APE tag without a header (its file can become empty), for a new ID3v2 tag with a footer (it counts as junk) and when the removal of a tag uncovers the mark of another format."
  },
  {
   "property": "C230",
   "status": "partial",
   "theorems": [
    "C230_from_element",
    "C230_limit_first",
    "C230_repeat",
    "C230_capacity",
    "C230_longer_refuted"
   ],
   "note": "Proved for all that the crate calls. fallible_repeat on a vector longer than the size would write outside of its memory; the trait is private and used on new vectors."
  },
  {
   "property": "C231",
   "status": "proved",
   "theorems": [
    "C231_thread",
    "C231_others",
    "C231_setters"
   ],
   "note": ""
  },
  {
   "property": "C232",
   "status": "partial",
   "theorems": [
    "C232_comments_same",
    "C232_comments_enough",
    "C232_comments_exact",
    "C232_comments_monotone",
    "C232_comments_within",
    "C232_list_refuted",
    "C232_ape_same",
    "C232_ape_enough",
    "C232_ape_monotone",
    "C232_ape_within"
   ],
   "note": "The memory for the list of comments (48 bytes for each) is not limited. The size of what comes out is proved without implicit conversions."
  },
  {
   "property": "C233",
   "status": "partial",
   "theorems": [
    "C233_same",
    "C233_unlimited",
    "C233_etco",
    "C233_priv_bound",
    "C233_popm_bound",
    "C233_priv_refuted",
    "C233_latin_refuted",
    "C233_popm_refuted",
    "C233_ctoc_refuted",
    "C233_chap_refuted",
    "C233_identifier"
   ],
   "note": "As documented for ETCO. PRIV may be one byte over the limit, and is refused though it fits when the owner is not ASCII; POPM asks for nine bytes whatever the counter is; CHAP and CTOC count only the identifier."
  },
  {
   "property": "C234",
   "status": "partial",
   "theorems": [
    "C234_extensible",
    "C234_compressed",
    "C234_file",
    "C234_no_fact",
    "C234_no_rate",
    "C234_adpcm_refuted",
    "C234_depth_refuted"
   ],
   "note": "Files with four bits for a sample (ADPCM) are refused, as the bytes for a sample are rounded down to 0. The depth is one byte, samples of 32 bytes have depth 0."
  },
  {
   "property": "C235",
   "status": "partial",
   "theorems": [
    "C235_fields",
    "C235_channels_refuted",
    "C235_opus_speakers",
    "C235_aac_speakers_partial",
    "C235_aac_speakers_refuted",
    "C235_wav_speakers_refuted",
    "C235_opus_rate_refuted",
    "C235_empty",
    "C235_unread",
    "C235_unread_refuted"
   ],
   "note": "Of more than 255 channels the lower eight bits are reported. AAC with channel configuration 7 has 7 channels and 8 speakers, the mask of a WAV file is not compared with its channels. The sample rate of Opus is that of the input and may be 0. An MPEG file whose properties are not read has the mask of stereo."
  },
  {
   "property": "C236",
   "status": "partial",
   "theorems": [
    "C236_read",
    "C236_get",
    "C236_remove",
    "C236_insert",
    "C236_values",
    "C236_twice_refuted"
   ],
   "note": "Proved for every tag that is read and every sequence of these calls. If a description is changed in place by retain_mut two texts can have the same description, and removing it leaves the second."
  },
  {
   "property": "C237",
   "status": "partial",
   "theorems": [
    "C237_remove",
    "C237_insert",
    "C237_icons_refuted",
    "C237_twice_refuted"
   ],
   "note": "insert does not look at the type of a picture: two icons that differ stay there. insert_picture does not look for the same picture."
  },
  {
   "property": "C238",
   "status": "partial",
   "theorems": [
    "C238_items",
    "C238_ogg",
    "C238_flac",
    "C238_empty_refuted",
    "C238_number_refuted"
   ],
   "note": "Proved for non-empty texts without trailing null; with number conversions on, for at most one track and one disc number, written as a decimal without leading zeros. Refuted: an empty text is dropped, 03 becomes 3."
  },
  {
   "property": "C239",
   "status": "partial",
   "theorems": [
    "C239_ape",
    "C239_wavpack",
    "C239_musepack",
    "C239_taken_refuted",
    "C239_total_refuted",
    "C239_several_refuted"
   ],
   "note": "Proved for tags with one item of each key whose name in APE tags is not shared, texts without null characters, if the new file does not end with something that looks like an ID3v1 tag. Refuted: a tag with TAG 128 bytes before its end is not found again, since that is taken for an ID3v1 tag; a total without number comes back with number 0; of two artists only the last comes back; pictures are not written (C74)."
  },
  {
   "property": "C240",
   "status": "partial",
   "theorems": [
    "C240_replaced",
    "C240_added",
    "C240_picture_refuted",
    "C240_nul_refuted",
    "C240_number_refuted"
   ],
   "note": "Proved for non-empty texts not ending in NUL and pictures of the types MP4 knows without description: texts come back under the key their name reads as (UnsyncLyrics as Lyrics), flags as 0 or 1, numbers as decimals if above 0, the first valid advisory, pictures with type Other. Refuted: type and description of pictures, texts ending in NUL, numbers that are not decimals."
  },
  {
   "property": "C241",
   "status": "partial",
   "theorems": [
    "C241_mpeg",
    "C241_aac",
    "C241_date_refuted",
    "C241_empty_refuted",
    "C241_locator_refuted"
   ],
   "note": "Proved for groups of items that frames carry (texts non-empty without NUL, no locators, no release, tagging or encoding date) and pictures without NUL in the description. Refuted: a release date that is no date makes the whole file unreadable, an empty value after another is lost, locators are lost."
  },
  {
   "property": "C242",
   "status": "partial",
   "theorems": [
    "C242_block",
    "C242_mpeg",
    "C242_length_refuted",
    "C242_genre_refuted",
    "C242_track_refuted",
    "C242_strict_refuted"
   ],
   "note": "Proved for Latin-1 texts: the first 30 characters (28 of the comment) up to a NUL, years up to 9999 (or the year of the recording date), track numbers from 1 to 255 and genres of the list come back. Refuted: longer texts, genres in another case or as a number, larger track numbers, strict reading without a year."
  },
  {
   "property": "C243",
   "status": "partial",
   "theorems": [
    "C243_wav",
    "C243_aiff",
    "C243_growth_refuted",
    "C243_info_refuted",
    "C243_size_refuted"
   ],
   "note": "Proved for the items and pictures of C241 if the file has no ID3 chunk, one before other chunks (in WAV files with padding: not 8 or more bytes larger than the new one) or one at the end that is not smaller. Refuted: saving over a smaller chunk at the end can panic, over a larger one before the RIFF INFO tag with padding loses that tag, and if the size field of the file is four bytes short the new tag loses its name."
  },
  {
   "property": "C244",
   "status": "partial",
   "theorems": [
    "C244_id3v1",
    "C244_id3v2",
    "C244_riff",
    "C244_aiff",
    "C244_ape",
    "C244_chunk",
    "C244_mp4",
    "C244_mp4_added",
    "C244_mp4_meta",
    "C244_flac",
    "C244_ogg",
    "C244_empty_refuted",
    "C244_ape_refuted",
    "C244_footer_refuted",
    "C244_flac_refuted",
    "C244_ogg_refuted"
   ],
   "note": "Proved for ID3v1 tags that are not empty, ID3v2 tags in MPEG and AAC files, RIFF INFO and AIFF text tags in every file, APE tags in files without an APE tag 8 bytes after the start, and ID3v2 tags without footer in the chunks of well-formed WAV and AIFF files. Refuted in the other cases. MP4 files as in C116 and C118; FLAC files that have no comments or some of the same vendor, for tags without pictures (refuted for another vendor, which is the one kept). OGG files with the same vendor: in one piece in the comment packet, which pages may divide."
  },
  {
   "property": "C245",
   "status": "partial",
   "theorems": [
    "C245_id3v1",
    "C245_id3v2",
    "C245_aiff",
    "C245_riff",
    "C245_ape",
    "C245_riff_refuted",
    "C245_chunk_refuted",
    "C245_ape_refuted",
    "C245_mp4_refuted"
   ],
   "note": "Proved for ID3v1, ID3v2 (in front of MPEG and AAC files) and AIFF text tags in every file, for RIFF INFO if the size field of the file is from 4 to 2^32 - 9 and no INFO list claims to end after the file, and for APE tags if there is none 8 bytes after the start. Refuted otherwise: RIFF size below 4, an INFO list larger than the file, a smaller ID3 chunk at the end, an APE tag 8 bytes after the start, MP4 with a preferred padding of 1 to 7. FLAC is in C91."
  },
  {
   "property": "C246",
   "status": "partial",
   "theorems": [
    "C246_hash",
    "C246_equivalence",
    "C246_events",
    "C246_times",
    "C246_sorted",
    "C246_order_refuted",
    "C246_uniform_refuted"
   ],
   "note": "Equality is an equivalence and frames are equal exactly if they give the same to the hasher; the orders are total preorders and sorting of events is stable. Refuted: events or timestamp frames of the same time compare as Equal without being equal; flags and encodings count for some frames only."
  },
  {
   "property": "C247",
   "status": "partial",
   "theorems": [
    "C247_id3v1",
    "C247_id3v2",
    "C247_riff",
    "C247_aiff",
    "C247_chunk",
    "C247_ape",
    "C247_flac",
    "C247_mp4",
    "C247_id3v1_refuted",
    "C247_id3v2_refuted",
    "C247_riff_refuted",
    "C247_ape_refuted",
    "C247_flac_refuted",
    "C247_mp4_refuted"
   ],
   "note": "Proved for tags that are not empty: ID3v1 and ID3v2 in front in every file, RIFF INFO, AIFF text and ID3 chunks in well-formed files (as in C105, C106, C108), APE with at least 64 bytes of audio, FLAC if no padding is wanted or there is some, MP4 if there is no free atom after the old list. Refuted: an empty ID3v1 tag is removed and added in turn, an empty ID3v2 or RIFF INFO tag removes one of several at a time, an APE value is taken for an ID3v1 tag, new FLAC padding moves, MP4 free space is overwritten by the second save. OGG files are in C99."
  },
  {
   "property": "C248",
   "status": "partial",
   "theorems": [
    "C248_riff_new",
    "C248_riff_replaced",
    "C248_wav_id3",
    "C248_wav_removed",
    "C248_aiff_text_new",
    "C248_aiff_text_replaced",
    "C248_aiff_id3",
    "C248_aiff_removed",
    "C248_flac",
    "C248_mpeg",
    "C248_aac_partial",
    "C248_ape",
    "C248_wavpack",
    "C248_musepack",
    "C248_ogg_partial",
    "C248_mp4_partial",
    "C248_mp4_added_partial",
    "C248_mp4_before_partial",
    "C248_overall_refuted",
    "C248_lost_refuted",
    "C248_aac_refuted",
    "C248_opus_refuted"
   ],
   "note": "Proved for well-formed files (as in C89, C105, C106, C108). Refuted: in WAV files, with padding, a tag at least 8 bytes smaller than the one in front of the audio makes the audio and its properties unreadable. The overall bit rate counts the tags. In AAC files ten bytes of the tag count as audio, and the duration grows by what they play (80 bits, at most one millisecond more); all else is the same. MPEG files with a Xing header or a constant bit rate, and tags from generic items, as in C241; APE, WavPack (audio in one block) and Musepack files with an APE tag, as in C239. OGG files whose first packet is shorter than 255 bytes, if the renumbered last page does not happen to contain the letters OggS: all but the measured bit rates; that of the audio of an Opus file counts the page headers of the comments. MP4 files with the tables of offsets as in C116: the tag is replaced and the audio track is before it; if the tag is before the track, or the first one, for reading without tags."
  },
  {
   "property": "C249",
   "status": "partial",
   "theorems": [
    "C249_id3v1",
    "C249_id3v2",
    "C249_riff",
    "C249_aiff",
    "C249_chunk",
    "C249_ape",
    "C249_flac",
    "C249_chunk_refuted",
    "C249_flac_refuted",
    "C249_mp4_refuted",
    "C249_mp4_offsets_refuted",
    "C249_ape_refuted"
   ],
   "note": "Proved for ID3v1 in every file, ID3v2 in front of files without the letters ID3 in the part that is searched (tags without extended header), RIFF INFO, AIFF text and ID3 chunks in well-formed files (as in C105, C106, C108), APE with at least 64 bytes of audio, and FLAC without padding. Refuted: in WAV files with padding and bytes after the last chunk a JUNK chunk stays; FLAC padding stays; the udta and meta atoms of MP4 files stay, and the chunk offsets, which adding does not move, are moved back by removing and then point into other data; an APE value is taken for an ID3v1 tag. In OGG files the comment packet always stays."
  },
  {
   "property": "C250",
   "status": "partial",
   "theorems": [
    "C250_id3v1",
    "C250_id3v2",
    "C250_riff",
    "C250_aiff",
    "C250_chunk",
    "C250_ape",
    "C250_flac",
    "C250_flac_refuted",
    "C250_mp4_refuted",
    "C250_id3v1_refuted",
    "C250_riff_refuted",
    "C250_chunk_refuted"
   ],
   "note": "Proved if the first tag is not empty: ID3v1 (both not empty) and ID3v2 in front in every file, RIFF INFO, AIFF text and ID3 chunks in well-formed files (as in C105, C106, C108), APE with at least 64 bytes of audio, FLAC if the vendor that is kept is the same and no padding is wanted or there is some. Refuted: the vendor of the first FLAC comments stays, free space of MP4 files is used up, an empty ID3v1 tag is written or removed in turn, an INFO list that is removed and added is at the end, an ID3 chunk at the end that grows makes the size field wrong."
  },
  {
   "property": "C251",
   "status": "partial",
   "theorems": [
    "C251_id3",
    "C251_ape",
    "C251_id3v2_ape",
    "C251_aiff",
    "C251_wav",
    "C251_wav_refuted",
    "C251_short_refuted"
   ],
   "note": "Proved for ID3v1 tags that are not empty with ID3v2 tags (a tag without extended header in front, behind any junk, or none if the window is not longer than the audio) and with APE tags (at least 64 bytes of audio, an old tag or none), for ID3v2 tags in front with APE tags (at least 128 bytes of audio), and for AIFF text and ID3 chunks in well-formed files that have neither, and for RIFF INFO and ID3 chunks in WAV files that have the list. Refuted: in WAV files that have neither the chunks are in the order in which they were added; in a file shorter than the window the letters ID3 in an ID3v1 tag are taken for an ID3v2 tag."
  }
 ]
}
