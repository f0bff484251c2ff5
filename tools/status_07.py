done("C75","partial",["C75_finds_last","C75_position_refuted"],"The search itself is proved for all inputs; refuted: without a match the reader is not back where it was.")
done("C76","proved",["C76_replace_range","C76_as_used"],"For every buffer size, including the one used.")
done("C77","partial",["C77_crash_atomic_refuted","C77_crash_keeps_tail_refuted","C77_front_is_safe"],"Refuted: bytes after the range can be lost. Bytes before the range are safe at every crash point.")
done("C78","partial",["C78_packet_roundtrip_partial","C78_empty_left_out","C78_unrestricted_refuted","C78_leading_zero_refuted"],"Proved for non-empty values without trailing null, valid names, and names without special treatment; with conversions on also TRACKNUMBER and DISCNUMBER, each once, as decimals without leading zeros or as texts that are no number. Refuted: empty values are dropped, 01 becomes 1.")
done("C79","partial",["C79_pair","C79_kept","C79_all_kept_refuted"],"The pair and the kept texts are proved from every state. Refuted: a second TRACKNUMBER field replaces the first.")
done("C80","partial",["C80_read_total_partial","C80_read_total_refuted"],"Refuted: COVERART=QUJD panics. Any panic comes from such a field, with cover art reading on.")
done("C81","partial",["C81_get","C81_insert","C81_push","C81_numbers","C81_date_partial","C81_independent_partial","C81_len","C81_contains","C81_other_fields_refuted","C81_date_refuted"],"Dates must be valid (C64); independence holds for fields with one value, and up to order in general (C82). Refuted: setting the date can change which value of another field comes first; a day without a month is lost.")
done("C82","partial",["C82_remove_partial","C82_other_fields_refuted","C82_set_track_refuted"],"Refuted: removing one field swaps others, so another name can read differently afterwards; set_track does this too.")
done("C83","partial",["C83_names_partial","C83_reachable_refuted"],"Refuted: a comment beginning with '=' is kept under the empty name.")
done("C84","partial",["C84_merge_partial","C84_encoder_partial","C84_order_refuted"],"Plain keys only. With an encoder the fields are permuted: the first artist can change. Pictures below eight bytes are dropped.")
done("C85","partial",["C85_split_merge_partial","C85_order_refuted","C85_encoder_refuted","C85_rating_refuted","C85_pictures_refuted"],"Refuted: order, vendor with an ENCODER field, RATING without address, stored picture dimensions, small pictures.")
done("C86","partial",["C86_direct_partial","C86_direct_refuted"],"Refuted: the encoder is stored twice; flags and ratings are stored raw.")
done("C87","partial",["C87_insert","C87_icons_unique","C87_failure_refuted","C87_set_partial","C87_set_refuted","C87_remove_type"],"Refuted: a failed insertion has removed the old icon; set_picture can create a second icon.")
