done("C28","proved",["C28_roundtrip","C28_dump_total"],"Holds wherever the tag is in the stream and from either end. The read-only flag of the whole tag is not restored (C67).")
done("C29","proved",["C29_unique","C29_read_unique","C29_get"],"All operations of ApeTag including the conversions, and any bytes read.")
done("C30","proved",["C30_text_values"],"Starting from any tag without the key; other keys are unchanged.")
done("C31","proved",["C31_number_pairs"],"From every tag state, for the track and disc keys (stated for any key). set_*_total on a tag without number makes the number 0.")
done("C67","partial",["C67_read_only_refuted","C67_never_read_only"],"Refuted: the flag is written but never read; no tag read is ever read-only.")
done("C68","partial",["C68_respect_read_only_refuted","C68_old_items_irrelevant"],"Refuted: read-only items of the old tag are always dropped; what is written does not depend on the old items.")
done("C69","partial",["C69_save_partial","C69_no_header_refuted","C69_unread_tag_refuted","C69_overlap_refuted"],"Proved for audio + (no tag or a tag written by lofty, below 2^32 bytes) + optional ID3v1 tag, possibly after an ID3v2 tag. Refuted: a version 2 tag without header makes saving delete 32 bytes of audio; with read_tags(false) a second tag is appended; a tag starting 8 bytes into the file cuts the new tag or panics.")
done("C70","partial",["C70_read_tag_total","C70_read_file_refuted"],"Proved for read_ape_tag. Refuted for ApeFile::read_from: with an ID3v2 tag in front, a footer claiming the whole file underflows the stream length.")
done("C71","partial",["C71_crash_refuted","C71_complete"],"Refuted for every successful save: the file is empty after the first operation. Without a crash the content is as computed.")
done("C72","partial",["C72_leading_tag_unreadable","C72_leading_tag_refuted","C72_leading_tag_saved_refuted"],"Refuted: no file starting with an APE tag can be read, and saving adds a second tag.")
done("C73","partial",["C73_split_merge_partial","C73_texts_partial","C73_pictures_refuted","C73_fields_refuted"],"Proved for plain keys (not track, disc, movement, compilation), table spelling and items that are not read-only. Refuted: pictures never come back, a year becomes a recording date, the read-only flag of items and non-numeric tracks are lost.")
done("C74","partial",["C74_same_items_partial","C74_multi_value_refuted","C74_pictures_refuted"],"Proved for one value per key without pictures, pairs and flag. Refuted: of several values only the last can be read back; pictures are not written.")
