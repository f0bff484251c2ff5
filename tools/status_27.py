done("C223","proved",["C223_descriptor"],"Bit depths below 256; a larger one loses its upper byte.")
done("C224","proved",["C224_old_header"])
done("C225","partial",["C225_duration_partial","C225_no_rate","C225_last_block_refuted"],"Proved when the last frame has two blocks or more. With one block, all the other frames are left out.")
done("C226","partial",["C226_bit_rate","C226_overall_partial","C226_overall_refuted","C226_empty_refuted","C226_covered_refuted"],"Proved for the audio bit rate, and for the overall bit rate of files that end with an APE tag that is read. Otherwise an ID3v1 tag does not count, without an APE tag 24 bytes of the audio neither. A file of one empty frame has the bit rate 2^32-1. The bytes that an APE tag claims for itself do not count, even if they are the audio.")
done("C227","partial",["C227_strict_partial","C227_tolerant","C227_channels_refuted"],"Proved below 256 channels. The upper byte of the number of channels is ignored: 257 channels are taken for mono in strict mode.")
done("C228","proved",["C228_total","C228_complete","C228_not_asked"])
