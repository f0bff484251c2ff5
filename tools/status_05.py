done("C23","partial",["C23_tables","C23_from_key_mapped","C23_all_variants","C23_first_variant_refuted"],"Proved with the exceptions listed in ItemKeyThm.exceptions. Finding: for a format key with several meanings the later row wins, not the first as item.rs says (e.g. from_key(Ape, \"Track\") is TrackTotal).")
done("C24","proved",["C24_order_and_case"])
done("C25","proved",["C25_insert","C25_push","C25_remove_key"])
done("C26","partial",["C26_take_filter_partial","C26_take_partial","C26_order_refuted"],"Finding: the remaining items do not keep their order ([A,B,K] becomes [B,A]). Proved, also for filters with state: the taken items in order, the rest as a permutation.")
done("C27","proved",["C27_re_map"])
done("C55","partial",["C55_new_checked_partial","C55_id3v1_never","C55_new_checked_refuted"],"Finding: new_checked never accepts anything for ID3v1. Proved for the other types.")
done("C56","partial",["C56_flac_picture","C56_unrestricted_refuted"],"Proved for representable pictures (no empty description, canonical type and MIME type, sizes below 2^32); refuted without.")
done("C57","proved",["C57_flac_picture_total"])
done("C58","partial",["C58_ape_picture_partial","C58_ape_description_refuted","C58_ape_read_total"],"Finding: the description is written as UTF-8 and read as Latin-1. Proved for ASCII descriptions; totality proved for all input.")
done("C59","partial",["C59_png_partial","C59_png_palette","C59_png_grey_alpha_refuted","C59_png_total"],"Finding: greyscale with alpha reports depth times 4. Proved for all other colour types; totality for all input.")
done("C60","partial",["C60_jpeg_partial","C60_jpeg_total_refuted"],"Findings: panics on a segment length below 2 and on precision times components above 255 (checked arithmetic). Proved for well-formed files.")
done("C61","proved",["C61_picture_types"])
done("C62","proved",["C62_sniff"])
done("C63","proved",["C63_supported_items"])
done("C64","partial",["C64_text","C64_number","C64_date_partial","C64_date_refuted","C64_support"],"Text and numbers proved; dates proved for valid timestamps, refuted for others (set_date accepts them).")
done("C65","partial",["C65_id3v1_roundtrip_partial","C65_unrestricted_refuted"],"Proved for genres in the table (and numbers within their Rust type); genre codes above 191 are lost.")
done("C66","partial",["C66_same_fields_partial","C66_first_artist_refuted","C66_locator_refuted"],"Findings: with two artists before the title the conversion takes the second artist; locators are taken by one path only. Proved with at most one text item per field.")
