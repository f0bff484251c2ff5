done("C164","proved",["C164_decode","C164_only"],"")
done("C165","partial",["C165_length_partial","C165_length_refuted"],"Proved but for Layer I at 44.1, 22.05 and 11.025 kHz, where it is false: the code does not round to slots of four bytes.")
done("C166","proved",["C166_first_sync"],"")
done("C167","partial",["C167_found_partial","C167_file_partial","C167_byte_before_refuted","C167_single_refuted","C167_end_refuted"],"Proved for two frames or more. A byte 0xFF before the first frame hides it; a single frame is not found; something like a sync in the last three bytes of the file is an error. Missing: ID3v2 tags with an extended header. For an APE tag before the audio see C171.")
done("C168","partial",["C168_xing","C168_vbri_partial","C168_vbri_refuted"],"Proved for Xing and Info. VBRI is always 32 bytes after the frame header, but it is looked for where the Xing header would be, so it is found in MPEG 1 stereo only.")
done("C169","partial",["C169_cbr","C169_accuracy","C169_vbr_refuted","C169_short_refuted"],"Two short frames are an error. Without a VBR header the bit rate of the first frame is taken for all.")
done("C170","proved",["C170_total"],"Running out of fuel is a panic in the model, so this is also termination.")
done("C171","partial",["C171_tags_partial","C171_with_props_partial","C171_leading_ape","C171_footer_refuted"],"Proved if only the first ID3v2 tag has a footer: that of a later one is not skipped, and tags behind it are not seen. Missing: extended headers.")
done("C172","partial",["C172_independent_partial","C172_ape_refuted","C172_leading_refuted"],"Proved without an APE tag. With an APE tag that is not read the end of the audio is wrong by the size of the tag, or its start by 32 bytes if the tag is before the audio.")
done("C173","proved",["C173_file_properties","C173_channels"],"")
