done("C181","partial",["C181_properties","C181_multichannel_refuted"],"Proved for audio in one block. For audio in several blocks the channels and speakers are proved to be 0 whenever the file is read.")
done("C182","partial",["C182_rate","C182_channels_refuted"],"Sample rates of three bytes and DSD are proved. A channel sub-block at the end of a block makes reading fail, or in the other modes leaves all properties empty; before another sub-block it makes that one misread (C182_example_shifted). Of a sample rate of four bytes the last is ignored (C182_example_four).")
done("C183","partial",["C183_duration","C183_unknown","C183_long_refuted"],"Proved for fewer than 2^32 - 1 samples; the bit rates are within 1/2 + 2^-17 of the exact value. Beyond, the upper byte of the number is ignored.")
done("C184","partial",["C184_total","C184_ape_size_refuted"],"Proved for files without ID3v1 tag, without APE tag before it, or with one whose size fits. Otherwise the subtraction of the size of the APE tag can overflow.")
done("C185","proved",["C185_tags"],"For files of at least 32 bytes before the ID3v1 tag.")
