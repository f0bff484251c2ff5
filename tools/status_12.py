done("C125","partial",["C125_remove","C125_replace","C125_other_partial","C125_other_refuted","C125_order_refuted"],"Refuted: with two artists, setting the title changes the artist, as removal swaps items.")
done("C126","partial",["C126_text","C126_numbers","C126_large_refuted","C126_remove_total_refuted","C126_date","C126_utf16_date_refuted"],"Refuted for numbers above 65535 (cut to 16 bits), for removing a total (0 stays) and for UTF-16 dates.")
done("C127","proved",["C127_flags"],"")
done("C128","proved",["C128_rating"],"")
done("C129","proved",["C129_insert","C129_picture"],"")
done("C130","partial",["C130_remove_pictures_partial","C130_remains_refuted","C130_text_lost_refuted"],"Refuted for items whose first value is of another sort than a later one.")
done("C131","partial",["C131_split","C131_numbers","C131_picture_dropped_refuted","C131_text_dropped_refuted","C131_text_number_refuted"],"Refuted: a picture in another item and a text in the cover item are dropped; a track number stored as text becomes the track total.")
done("C132","partial",["C132_texts","C132_pictures","C132_numbers","C132_rating","C132_rest","C132_locator_refuted","C132_large_number_refuted"],"Refuted: locator items and numbers that do not fit in 16 bits are dropped.")
done("C133","partial",["C133_texts","C133_same_texts","C133_pictures","C133_rest","C133_values","C133_numbers","C133_rating","C133_one_atom_refuted","C133_title_refuted","C133_not_preserved_refuted"],"Refuted as planned: a title followed by a number in the same item is no longer the title afterwards.")
done("C134","partial",["C134_texts","C134_pictures","C134_keys","C134_numbers","C134_rating","C134_zero_refuted"],"Refuted for number 0. Unsynchronised lyrics come back as lyrics (C134_keys).")
