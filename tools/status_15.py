done("C151","partial",["C151_flag","C151_genre","C151_genre_high_refuted","C151_name_overrun"],"Only the low byte of a genre number is looked at: 257 is read as 1.")
done("C152","proved",["C152_merged"],"")
