done("C21","proved",["C21_star_ratings"])
done("C22","partial",["C22_text_partial","C22_text_refuted","C22_empty_email_refuted"],"Findings: an email containing '|' breaks parsing; an empty email comes back as none.")
done("C32","proved",["C32_restrictions"])
done("C33","partial",["C33_v24_flags","C33_v23_flags_partial","C33_v23_experimental_refuted"],"Finding: ID3v2.3's experimental flag is written on the extended header bit. ID3v2.4 fully proved.")
done("C34","proved",["C34_sizes"])
done("C35","partial",["C35_never_recognised","C35_recognised_refuted"],"Refuted: an 8-byte slice is compared with the 9-byte literal, so no Lyrics3v2 block is ever recognised (C35_never_recognised gives the actual result for every stream).")
done("C36","partial",["C36_normal_partial","C36_special_partial","C36_out_of_range_refuted","C36_sign_refuted","C36_unnormal_refuted","C36_infinity_refuted"],"Proved for normalised values in the f64 range and for zero, infinity (zero fraction) and NaN. Findings: exponents outside the range wrap into the sign bit; unnormalised fractions; infinity with the integer bit set becomes NaN.")
done("C37","proved",["C37_div_round","C37_doc_note_refuted"],"The documentation's note that the result is never zero is refuted separately.")
done("C50","proved",["C50_stored_rating"])
done("C51","partial",["C51_end_of_tag_partial","C51_full_tag_size_partial","C51_end_of_tag_refuted","C51_full_tag_size_refuted"],"Finding: extended header counted twice. Proved without extended header.")
done("C52","partial",["C52_ext24_partial","C52_update_flag_refuted","C52_ext23_never","C52_ext23_unsync_refuted"],"Findings: ID3v2.4 update flag, every ID3v2.3 extended header, unsynchronised ID3v2.3 extended header. Proved for ID3v2.4 without update flag.")
done("C53","partial",["C53_unchanged_partial","C53_unchanged_refuted","C53_bad_extended_header_refuted"],"Findings: fails on streams shorter than 10 bytes; moves after extended header errors.")
done("C54","proved",["C54_junk_search","C54_junk_then_tag"])
