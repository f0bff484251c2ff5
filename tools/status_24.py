done("C206","partial",["C206_insert","C206_remove","C206_change_type","C206_change","C206_clear","C206_histories","C206_remap_refuted"],"Proved for changes in place that keep the type of the tag. With Tag::re_map through tag_mut there are two tags of one type, and an inserted tag is not the one that is found.")
done("C207","partial",["C207_saved","C207_total","C207_cleared","C207_atomic_refuted"],"It is not all or nothing: the type of the file is found again for every tag, and an error leaves the tags before it written. That the writers keep the type of the file is a premise.")
done("C208","partial",["C208_supported","C208_unsupported","C208_unknown","C208_empty","C208_mp4_refuted","C208_ogg_refuted","C208_flac_refuted","C208_custom_refuted"],"Proved for tags with items or pictures in all built-in formats. An empty tag of a type that the format does not support is written as an empty tag of the format to MP4 and Ogg files, panics for FLAC; a file of a custom type always panics.")
done("C209","partial",["C209_readable","C209_unsupported","C209_path_refuted","C209_path_error_refuted","C209_path_name_refuted"],"Proved for open files. By path nothing is ever removed: the file is opened for reading only.")
done("C210","partial",["C210_fields","C210_saved","C210_flac","C210_tagged","C210_order","C210_readonly_refuted","C210_flac_readonly_refuted","C210_flac_other_refuted"],"Proved if no tag of the file is of a read-only type. With one (an ID3v2 tag in FLAC, APE and Musepack files, an ID3v1 tag in Musepack files) saving always fails, behind the tags in front of it. FlacFile saved to a file of another format panics or writes to an Ogg file.")
done("C211","partial",["C211_bound","C211_companion_refuted"],"A tag that only has format-specific items is written but dropped from memory.")
