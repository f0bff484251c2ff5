done("C114","partial",["C114_builds","C114_roundtrip","C114_utf16_refuted","C114_empty_refuted","C114_bool_refuted"],"Refuted for UTF-16 text, empty values and booleans outside the five flag items.")
done("C115","partial",["C115_unsigned","C115_signed","C115_one_byte_refuted"],"Refuted for every negative number in one byte.")
done("C116","proved",["C116_saved","C116_read_back"],"For files below 4 GiB with 32-bit atom sizes, a padding of 0 or at least 8 bytes.")
done("C117","partial",["C117_offsets","C117_tables","C117_co64_refuted","C117_fragments_refuted"],"Refuted for co64 tables (the entry count is read from the first offset) and fragments (the header is never found).")
done("C118","partial",["C118_udta_added","C118_udta_read_back","C118_meta_added","C118_offsets_refuted"],"Refuted: media data behind moov moves and no table is changed.")
done("C119","proved",["C119_removed"],"")
done("C120","partial",["C120_tree","C120_extended_refuted","C120_to_end_refuted"],"Refuted: a file with an atom with a 64-bit size before moov cannot be read at all; the length of an atom of size 0 is 8 too small.")
done("C121","partial",["C121_rewrites","C121_crash_refuted"],"Refuted for every save: the file is emptied first.")
done("C122","partial",["C122_first_replaced_refuted"],"Refuted for all such files: the first atom, usually the handler, is replaced or removed.")
done("C123","partial",["C123_swallowed_refuted"],"Refuted for every such item followed by another.")
done("C124","partial",["C124_track_tag_refuted"],"Refuted: what follows mdia in a track is taken for a child of moov.")
