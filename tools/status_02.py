done("C11","proved",["C11_latin1_strict","C11_latin1_lossy"])
done("C12","proved",["C12_text_roundtrip","C12_what_survives","C12_unrestricted_refuted"],"The restriction in the statement is necessary: U+FEFF/U+FFFE inside UTF-16 text are dropped (refuted witness); C12_what_survives gives the exact result for every text written without terminator. Proved for both native byte orders.")
done("C13","proved",["C13_decode_total"])
done("C14","proved",["C14_block"])
done("C15","proved",["C15_roundtrip"],"In strict mode only for tags with a year, see C45.")
done("C16","partial",["C16_resave_refuted","C16_resave_partial"],"Finding: a 29 or 30 character comment of an ID3v1.0 block loses its last characters. Proved for every block whose comment is at most 28 characters.")
done("C17","partial",["C17_save","C17_shape_total","C17_empty_tag_unchanged_refuted"],"Finding: saving an empty tag to a file without ID3v1 tag appends an empty 128-byte block. All other parts proved, for every crash point.")
done("C42","partial",["C42_error_byte_index_refuted","C42_error_byte_index_partial"],"Finding: valid_up_to is a character index.")
done("C43","proved",["C43_utf8_decode_exact"])
done("C44","proved",["C44_utf16_maybe_bom"])
done("C45","partial",["C45_strict_mode_reads_own_output_refuted","C45_strict_mode_reads_own_output_partial"],"Finding: tags without year.")
done("C46","partial",["C46_set_track_refuted","C46_accessors_partial"],"Finding: set_track keeps only the low 8 bits.")
done("C47","proved",["C47_parse_total"])
