done("C212","partial",["C212_shown","C212_roundtrip","C212_back","C212_unknown_refuted","C212_alias_refuted"],"Proved for keys in the table. Items under other keys are lost, because the remainder of the split holds nothing, and ITRK comes back as IPRT.")
done("C213","partial",["C213_same","C213_rating","C213_rating_refuted","C213_lost_refuted"],"Proved for tags without ratings. A converted tag has the text of the rating and not the number, and the number is not read as a rating again.")
done("C214","partial",["C214_roundtrip","C214_of_tag","C214_writer","C214_order_refuted","C214_comments_refuted","C214_link_refuted"],"Proved but for the order: comments change their order if another item stands behind them, and with several artists or copyright messages some one is taken. Comments with time stamps become annotations. A title that is a link is converted but not written.")
done("C215","partial",["C215_text","C215_number","C215_date","C215_case_refuted","C215_track_refuted"],"Proved for lists without two keys that differ in case only. A list from a file with the key inam has no title by the accessor, though it contains it and its tag shows it; a number under ITRK is seen in the tag only.")
done("C216","partial",["C216_comment","C216_counts","C216_remove_refuted","C216_empty_list_refuted"],"Proved for chunks without empty lists. Removing the comment leaves those with time stamps, of which the first is then read.")
done("C217","proved",["C217_wav","C217_aiff"],"The WAV part is for tags without ratings (see C213).")
