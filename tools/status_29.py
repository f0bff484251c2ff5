done("C230","partial",["C230_from_element","C230_limit_first","C230_repeat","C230_capacity","C230_longer_refuted"],"Proved for all that the crate calls. fallible_repeat on a vector longer than the size would write outside of its memory; the trait is private and used on new vectors.")
done("C231","proved",["C231_thread","C231_others","C231_setters"],"")
done("C232","partial",["C232_comments_same","C232_comments_enough","C232_comments_exact","C232_comments_monotone","C232_comments_within","C232_list_refuted","C232_ape_same","C232_ape_enough","C232_ape_monotone","C232_ape_within"],"The memory for the list of comments (48 bytes for each) is not limited. The size of what comes out is proved without implicit conversions.")
done("C233","partial",["C233_same","C233_unlimited","C233_etco","C233_priv_bound","C233_popm_bound","C233_priv_refuted","C233_latin_refuted","C233_popm_refuted","C233_ctoc_refuted","C233_chap_refuted","C233_identifier"],"As documented for ETCO. PRIV may be one byte over the limit, and is refused though it fits when the owner is not ASCII; POPM asks for nine bytes whatever the counter is; CHAP and CTOC count only the identifier.")
