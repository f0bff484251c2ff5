done("C191","proved",["C191_duration","C191_readable"],"For durations below 2^54 units; files with properties of the tag that can be read.")
done("C192","partial",["C192_mp4a","C192_extended_partial","C192_seven_refuted","C192_usac_refuted","C192_extended_refuted","C192_rate_refuted","C192_als","C192_als_refuted"],"Proved for object types below 31, indexed rates and up to six channels, and for types 32 to 39 but 36 all except the channels. Eight channels (configuration 7) are reported as 7; type 42 as 35; with an extended type two channels as 64; a rate that is written out is wrong. For lossless audio (type 36) rate and channels are those of its own configuration, up to 255 channels; 256 lead to a panic, of more the lower eight bits are reported.")
done("C193","partial",["C193_alac","C193_flac","C193_alac_refuted"],"FLAC is proved with any atoms behind. ALAC is only recognised if its atom is the only one in the only sample entry.")
done("C194","partial",["C194_other","C194_undescribed","C194_second_refuted"],"Proved for the only entry. An entry behind it is read from the wrong place.")
done("C195","proved",["C195_overall","C195_audio","C195_average","C195_no_data"],"For rates below 2^32 and durations of at least a millisecond; the average for object types below 31.")
done("C196","partial",["C196_terminates","C196_bounds","C196_endless_refuted","C196_wide_refuted"],"All loops end for data of less than 2^32 - 8 bytes. An atom of size 0 with 2^32 bytes behind its header makes the search for moov go on forever. A media duration of 2^62 panics; so do a FLAC configuration of less than four bytes, an ALS stream of 256 channels and a freeform item with a 64-bit size that ends before its name (examples).")
done("C197","partial",["C197_order_partial","C197_order_refuted"],"Proved for orders with the media information last. If it comes before the handler, there is no audio track.")
