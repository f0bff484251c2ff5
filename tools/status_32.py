done("C238","partial",["C238_items","C238_ogg","C238_flac","C238_empty_refuted","C238_number_refuted"],"Proved for non-empty texts without trailing null; with number conversions on, for at most one track and one disc number, written as a decimal without leading zeros. Refuted: an empty text is dropped, 03 becomes 3.")
done("C239","partial",["C239_ape","C239_wavpack","C239_musepack","C239_taken_refuted","C239_total_refuted","C239_several_refuted"],"Proved for tags with one item of each key whose name in APE tags is not shared, texts without null characters, if the new file does not end with something that looks like an ID3v1 tag. Refuted: a tag with TAG 128 bytes before its end is not found again, since that is taken for an ID3v1 tag; a total without number comes back with number 0; of two artists only the last comes back; pictures are not written (C74).")
