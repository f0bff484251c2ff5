done("C218","proved",["C218_layout","C218_accepted","C218_total"])
done("C219","partial",["C219_roundtrip","C219_v23_utf8_refuted","C219_v23_utf16be_refuted"],"Proved for ID3v2.4, and for ISO-8859-1 and UTF-16 in ID3v2.3. There, frames with UTF-8 and UTF-16BE are written in UTF-16 but with their own encoding byte: with UTF-8 none of them can be read back, with UTF-16BE the bytes of the characters are swapped.")
done("C220","partial",["C220_roundtrip","C220_total","C220_mime_refuted"],"Proved for MIME types in ASCII. Others are written as UTF-8 and read as ISO-8859-1.")
done("C221","partial",["C221_roundtrip","C221_total","C221_eq_refuted"],"Round trip and totality proved. Frames with the same text are equal whatever their clips.")
done("C222","proved",["C222_table","C222_scramble"])
