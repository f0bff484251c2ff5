done("C103","partial",["C103_all_chunks","C103_well_formed","C103_pad_refuted"],"Refuted for a pad byte that makes an identifier with the following bytes.")
done("C104","proved",["C104_roundtrip"],"For values that do not end with a null character; empty values are not written.")
done("C105","partial",["C105_new_list","C105_list_replaced","C105_read_back","C105_second_list_refuted","C105_odd_list_refuted","C105_panic_refuted"],"Refuted: a second list stays, an odd list leaves its pad byte behind, three kinds of files make it panic.")
done("C106","partial",["C106_added","C106_moved","C106_last","C106_nothing_to_remove","C106_removed","C106_growth_refuted","C106_growth_example","C106_junk_refuted","C106_junk_example"],"Refuted for every growing tag at the end of the file (size field wrong or panic) and for every shrinking tag replaced in the middle of a WAV file with padding (JUNK chunk too large by 8).")
done("C107","partial",["C107_roundtrip","C107_odd_comment_refuted"],"Refuted: after a comment of odd length the next is misread. Empty lists of annotations and comments are read as none.")
done("C108","partial",["C108_new_text","C108_text_replaced","C108_read_back","C108_trailing_refuted"],"Refuted: up to 7 bytes behind the FORM chunk are counted into its size.")
done("C109","partial",["C109_riff_refuted","C109_id3_refuted","C109_aiff_refuted","C109_last_chunk_safe"],"Refuted for every save of INFO lists and text chunks; proved for an ID3v2 chunk at the end.")
done("C110","partial",["C110_pcm","C110_file","C110_channels_refuted"],"For other files than PCM and float see C234.")
done("C111","partial",["C111_properties","C111_bitrates","C111_nearest","C111_duration_refuted","C111_rate_refuted"],"Proved for sample rates that are whole numbers. The bit rates are within 1/2 + 2^-17 of the exact value, which is the nearest whole number unless that is closer than this to a tie.")
done("C112","proved",["C112_wav","C112_aiff"],"For WAV, file lengths below 2^57. The ID3v2 parser is a parameter that must not panic.")
done("C113","partial",["C113_insert","C113_remove","C113_bad_key","C113_case_refuted","C113_duplicate_refuted"],"Refuted for keys in other case and for lists with duplicate keys.")
