done("C142","proved",["C142_read","C142_insert","C142_kept","C142_single","C142_several","C142_says","C142_empty"],"")
done("C143","partial",["C143_total","C143_position","C143_depth","C143_compressed_refuted"],"C143_total: no panic for any content that does not grow when decompressed. The recursion is not bounded: chapters in chapters need 27 bytes each (C143_depth), and a compressed chapter whose decompressed content holds the same chapter is never finished (C143_compressed_refuted; whether such a stream exists is a question about the zlib format, which is not modelled).")
done("C144","partial",["C144_extended_refuted","C144_unsync_refuted"],"Refuted: every ID3v2.4 tag with a checksum or restrictions is read back without frames, because the flag for the extended header is not written; the flag for unsynchronisation is written without unsynchronising. C139 and C140 hold for the other flags.")
done("C145","partial",["C145_unsync_refuted","C145_length_refuted","C145_compression_refuted","C145_encrypted_refuted"],"Refuted for each of these flags. C138 and C139 hold for the other flags.")
done("C146","partial",["C146_bad_name","C146_timestamp","C146_damaged_refuted"],"Frames with bad names are skipped. Refuted for contents: an unknown text encoding makes the whole tag unreadable in every mode.")
done("C147","partial",["C147_place","C147_link_refuted","C147_next_frame_refuted","C147_comment_refuted"],"Proved for all kinds except links, and comments and lyrics in UTF-16. Refuted for those: what is behind the end of the text is taken for the next frame.")
done("C148","proved",["C148_replaced","C148_added","C148_again"],"")
done("C149","partial",["C149_crash_refuted","C149_letters_refuted","C149_extended_refuted","C149_window_refuted"],"Refuted: after a crash the file may be empty; the letters ID3 in the audio (with no tag) lose what is before them; an old tag with an extended header loses as many bytes of audio; with fewer than 3 junk bytes allowed the old tag is kept behind the new one.")
done("C150","partial",["C150_unwritable_refuted","C150_read_refuted","C150_language_refuted"],"Refuted for ownership frames and event timing codes (always), and for comments in a language that is not three letters.")
