done("C135","proved",["C135_ids","C135_upgrades"],"")
done("C136","proved",["C136_written","C136_read"],"")
done("C137","proved",["C137_header"],"")
done("C138","proved",["C138_content","C138_written"],"")
done("C139","proved",["C139_tag","C139_written"],"")
done("C140","proved",["C140_tag","C140_old_forms","C140_genres","C140_odd_date","C140_parentheses"],"C140_old_forms excludes ID3v2.3 frames named TDAT and TIME.")
done("C141","partial",["C141_date_removed","C141_early_year_refuted","C141_parenthesis_refuted","C141_people_refuted","C141_musicians_refuted"],"Refuted: a year below 1000 is written so that a strict reader refuses the file and others lose the date; a full date in an ID3v2.3 tag is removed while reading (for every list of frames); a genre that ends in a parenthesis breaks the list; the last pair of people is dropped if its value is empty; musicians become involved people.")
