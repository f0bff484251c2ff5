done("C95","proved",["C95_save"],"Identification and setup packets must not be empty. The length of the file is bounded by the 32-bit sequence numbers.")
done("C96","partial",["C96_after_junk_refuted","C96_shared_page_refuted","C96_other_streams_refuted","C96_opus_extra_refuted"],"Refuted in four ways; C95 is what holds.")
done("C97","proved",["C97_crash"],"The file is truncated before it is written: a crash can leave nothing.")
done("C98","partial",["C98_read_back","C98_vendor_refuted"],"For tags as in C78. Refuted: the vendor of the tag is ignored.")
done("C99","proved",["C99_idempotent"],"For files as in C95.")
done("C100","partial",["C100_last_page","C100_last_page_plain","C100_fake_page_refuted","C100_near_end_refuted"],"Refuted: page checksums are not compared, so packet bytes can pose as a page; a pattern in the last 26 bytes makes the search fail.")
done("C101","proved",["C101_opus","C101_vorbis","C101_speex"],"For files in which the last page can be found and the duration is positive.")
done("C102","partial",["C102_read_total_partial","C102_opus_channels_refuted","C102_opus_short_refuted","C102_speex_short_refuted"],"Panics: COVERART fields (C80), Opus with no or more than eight channels, Opus and Speex shorter than half a millisecond, durations near 2^64.")
