FL="lofty/src/id3/v2/frame/list.rs: "
prop("C236","User defined texts of an ID3v2 tag are a map by description",
 "After reading a tag no two user defined texts have the same description. Setting a text replaces the one with that description and no other, getting finds it, removing takes out that one; other frames stay as they are. The values of a text frame are its text between null characters.",
 "every tag that is read, every description, content and list of frames","all contents of tags and sequences of calls",
 [FL+"get_user_text, insert_user_text, remove_user_text, get_texts, insert", "lofty/src/id3/v2/read.rs: read_all_frames_into_tag"],
 "The texts as a list of pairs, the calls as operations on it; distinct descriptions are an invariant of reading and of the calls. Expected to fail if a frame is changed in place.")
prop("C237","Pictures of an ID3v2 tag are kept apart by type",
 "insert_picture adds a picture at the end; there is one icon and one other icon at most, which are replaced. remove_picture_type takes out all pictures of a type and nothing else. No picture is there twice.",
 "every list of frames and every picture","all lists of frames",
 [FL+"insert_picture, remove_picture_type", "lofty/src/id3/v2/items/attached_picture_frame.rs: AttachedPictureFrame"],
 "The pictures as a list; expected to fail for icons that are added as frames, and for the same picture added twice.")
