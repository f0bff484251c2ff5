done("C88","proved",["C88_block_roundtrip"],"")
done("C89","proved",["C89_save","C89_nothing"],"The comment blocks already present must hold a vendor string; the encoded blocks must be below 16 MiB.")
done("C90","partial",["C90_roundtrip_partial","C90_vendor_refuted","C90_tagged_file"],"For tags as in C78 and pictures as in C56. Refuted: the vendor of the tag is ignored if the file has comments.")
done("C91","partial",["C91_read_total_partial","C91_read_total_refuted","C91_write_total"],"Saving never panics. Reading panics only through COVERART fields (C80).")
done("C92","partial",["C92_removed_is_saved_refuted","C92_empty_tag_clears_partial"],"Refuted: without tag and pictures nothing is written, the old ones stay in the file. An emptied tag clears them.")
done("C93","proved",["C93_padding_absorbs"],"")
done("C94","proved",["C94_properties"],"Files below 2^61 bytes.")
