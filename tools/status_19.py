done("C176","partial",["C176_decode_partial","C176_index","C176_copyright_refuted","C176_channels_refuted","C176_layer_refuted"],"Proved for all fields but the copyright bit (the home bit is reported), configuration 7 (8 channels are reported as 7) and the speakers of configuration 4. Headers of MPEG layers I to III are taken as ADTS.")
done("C177","partial",["C177_found_partial","C177_single_refuted","C177_junk_refuted","C177_end_refuted","C177_small_refuted"],"Proved for at least two frames, junk and end without a sync, and a first frame whose bit rate is above 0. Refuted for one frame, for junk with the reserved sample rate index, for a sync in the last six bytes and for frames whose bit rate is below 1.")
done("C178","partial",["C178_formula_partial","C178_long_refuted","C178_bitrate"],"The formula of the code is proved: the mean of the bit rates of all frames but the last, in units of 1024 bits, and a stream that includes ten bytes per tag. With frames of one size the duration is proved to be at least 1.024 times too long, for every such file.")
done("C179","partial",["C179_total_partial","C179_stuck_refuted"],"Proved for files without a header of an empty frame; a file with two of them in a row is read forever.")
done("C180","partial",["C180_tags_partial","C180_independent_partial","C180_title_refuted","C180_frames_refuted","C180_footer_refuted"],"Proved for tags of which only the first has a footer, and, when tags are not read, for files that do not begin with an ID3v2 tag. The content of a tag is not skipped when tags are not read: a UTF-16 title makes the file unreadable, and frames in a tag are taken for the audio. A tag after a second tag with a footer is lost.")
