done("C153","partial",["C153_set_text","C153_remove","C153_values","C153_hidden_refuted","C153_order_refuted"],"Proved when the tag has no frame of that name or one that is a text frame. A frame of another kind with that name, as an encrypted one, stays first and hides the text. Removing keeps the other frames but not their order.")
done("C154","partial",["C154_set_number","C154_set_total","C154_remove_total","C154_total_only_refuted","C154_invented_refuted","C154_total_removed_refuted"],"Setting a total without a number sets the number to 0; removing the number removes the total; \"/10\" is read as number 10.")
done("C155","partial",["C155_set_refuted","C155_old_refuted","C155_get","C155_remove","C155_saved","C155_v23_refuted"],"set_date makes a text frame, which date does not see: after set_date there is no date, or still the old one; and in a 2.3 tag the date is not saved.")
done("C156","proved",["C156_set","C156_language","C156_remove"],"")
done("C157","partial",["C157_set","C157_number_refuted"],"Proved for texts of more than three bytes without NUL that do not begin with a parenthesis; false for numbers, RX, CR and the empty text.")
done("C158","partial",["C158_frames","C158_saved","C158_numbers","C158_movement_refuted","C158_head_refuted","C158_number_refuted","C158_description_refuted","C158_encoding_refuted"],"The version and the flags are lost when no frame is kept aside; numbers like A1 and the numbers of movements are lost; a second value of a comment loses the description; encodings and frame flags are not kept. The second part excludes URL frames, see C161.")
done("C159","partial",["C159_items","C159_lost_refuted","C159_shared_refuted","C159_total_refuted","C159_later_refuted","C159_gain_refuted"],"Six keys are accepted and dropped; three come back as other keys; a total without a number gets the number 0; later values of keys with one value are dropped.")
done("C160","partial",["C160_exact","C160_refused_refuted","C160_accepted_refuted"],"Exactly the six keys in LOST are accepted and give no frame, and exactly the six in HIDDEN give a frame and are refused.")
done("C161","partial",["C161_same","C161_tag","C161_locator_refuted","C161_people_refuted"],"Proved without locators, equal pictures and people both in the items and kept aside. URLs are lost when a Tag is saved; two TIPL frames are written.")
done("C162","partial",["C162_verified","C162_unsaved_refuted"],"False for the keys Work and FlagPodcast: with one of them the whole tag cannot be saved.")
