done("C186","proved",["C186_properties","C186_required","C186_no_header","C186_no_gain"],"For fewer than 2^54 samples, more samples than silence, packets of less than 2^45 bytes and bit rates below 2^32 kbit/s.")
done("C187","partial",["C187_fields","C187_gain","C187_negative_gain_refuted","C187_encoder_refuted","C187_duration_refuted"],"The fields and the bit rate are proved. The gain is within 1/2 of (64.82 dB - gain) * 256 for gains from 0.01 to 64.81 dB; a negative gain gives 0. The encoder's version is taken from the last byte of its word, not the first. The duration is that of all frames, with samples that are not heard: 9 ms too much without the gapless flag. Peaks go through a logarithm that is a parameter of the model.")
done("C188","partial",["C188_properties","C188_bitrate_refuted"],"All but the bit rate is proved. The bit rate reported is at most 7/8 of the true one (for 20 frames and more), as it is divided by 1152 in place of 1000.")
done("C189","partial",["C189_total_partial","C189_lone_frame_refuted","C189_sv8_refuted"],"Proved for files of less than 2^45 bytes in which no MPCK is followed by packets with 2^54 samples or 2^45 bytes, nor MP+ by a header of one gapless frame without samples. These make reading panic.")
done("C190","partial",["C190_tags","C190_untagged_refuted","C190_version_refuted","C190_bitrate_refuted","C190_short_refuted"],"The tags are proved. The version is always said to be 8. Without reading tags, an APE tag longer than all before it by more than 32 bytes is an error, and the ID3v2 tag counts for the bit rate. Streams of less than 32 bytes before an ID3v1 tag are an error.")
