done("C198","partial",["C198_magic","C198_sound","C198_long_head_refuted"],"Proved for every beginning; Ogg headers have to fit into one segment. An Opus header of 255 bytes or more (234 channels or more) is not recognised, or taken for AAC. MP4 sizes and Musepack 7 frame counts below 2^30.")
done("C199","partial",["C199_behind_tag","C199_footer_refuted"],"Proved for tags without a footer and of revision 0. The footer is not skipped: a FLAC file behind a tag with one is not recognised.")
done("C200","proved",["C200_junk"],"The bytes are marked by no format and do not begin with ID3.")
done("C201","proved",["C201_position","C201_local"],"")
done("C202","partial",["C202_wav","C202_aiff","C202_flac","C202_mp4_partial","C202_mpeg_refuted","C202_flac_refuted"],"Proved for WAV, AIFF, FLAC without a leading ID3v2 tag and MP4 with a first size below 2^30. MPEG files with 1023 zeros in front and FLAC files behind a tag with a footer are accepted by the readers and not recognised.")
done("C203","partial",["C203_extensions","C203_case","C203_custom","C203_path","C203_no_extension","C203_list","C203_list_refuted","C203_custom_case_refuted"],"The extension wave is recognised but not in the published list. A resolver whose extension has a capital letter is never chosen.")
done("C204","proved",["C204_support","C204_primary","C204_custom","C204_register"],"")
done("C205","partial",["C205_probe","C205_tagged_ignores","C205_tagged_refuted","C205_below_refuted"],"Proved for probes. TaggedFile::read_from guesses before it sets the options, so the limit is always 1024.")
