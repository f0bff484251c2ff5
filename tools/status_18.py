done("C163","partial",["C163_tag","C163_unsync23","C163_artist_refuted","C163_writer_refuted"],"Proved for all names but two: TOA (original artist) is read as TOAL (original album), TXT (text writer) as TOLY (original text writer).")
done("C174","partial",["C174_checksum","C174_padding_refuted","C174_restrictions_refuted","C174_panic_refuted"],"Proved without padding and restrictions. Padding is not covered; with restrictions the first byte of the frames is not covered, and a tag none of whose frames can be written panics.")
done("C175","partial",["C175_channels_partial","C175_bits","C175_ones","C175_peak_refuted","C175_panic_refuted"],"Proved when the bit count fits the peak. The bit count of a longer peak is replaced by the number of leading ones of its bytes: unreadable in general, an overflow for 32 bytes of 255.")
