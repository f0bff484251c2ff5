done("C229","partial",["C229_trailing","C229_id3v1","C229_ape","C229_wav_info","C229_aiff_text","C229_id3_chunk","C229_mp4","C229_ogg","C229_id3v2_replaced","C229_id3v2_added","C229_id3v2_removed","C229_flac","C229_short_size_refuted","C229_whole_file_refuted","C229_footer_refuted","C229_hidden_refuted"],
 "Proved per writer: ID3v1 (also after a crash) and APE tags behind 36 bytes or more of audio; RIFF INFO; AIFF text; ID3v2 chunks when the size in the header is 4 or more; MP4 below 2^32 bytes; Ogg with a first packet of less than 255 bytes; FLAC, also behind an ID3v2 tag; ID3v2 tags without a footer in front of MPEG and AAC. Not proved: WavPack and Musepack beyond what holds for all tags at the end. It fails for a WAV file whose declared size is below 4 (the chunk is put in front of WAVE), for an APE tag without a header (its file can become empty), for a new ID3v2 tag with a footer (it counts as junk) and when the removal of a tag uncovers the mark of another format.")
