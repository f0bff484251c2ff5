(** Model of the user defined texts and the pictures of an ID3v2 tag: lofty/src/id3/v2/frame/list.rs, get_texts 104-110,
    get_user_text 133-146, insert_user_text 171-177, remove_user_text 202-212, remove_picture_type 344-353, insert_picture 456-487.
    A picture is owned by its frame (the code does not find those that are borrowed). *)
From Verif Require Import Base Str PictureModel ApeModel FrameModel.

(** lines 104-110 *)
Definition fl_get_texts (id : frame_id) (l : list frame) : option (list str) :=
  match fl_get id l with Some (FText _ _ v) => Some (split_all 0 v) | _ => None end.
(** lines 133-146 *)
Definition has_desc (d : str) (f : frame) : bool := match f with FUserText _ _ d' _ => list_eqb d' d | _ => false end.
Definition get_user_text (d : str) (l : list frame) : option str :=
  match find (has_desc d) (filter (fun f => list_eqb (f_name f) ($"TXXX")) l) with Some (FUserText _ _ _ c) => Some c | _ => None end.
(** lines 171-177; extended_text_frame.rs 59-73 *)
Definition user_text (d c : str) : frame := FUserText (new_header ($"TXXX")) UTF8 d c.
Definition insert_user_text (d c : str) (l : list frame) : list frame * option frame := fl_insert (user_text d c) l.
(** lines 202-212 *)
Definition remove_user_text (d : str) (l : list frame) : option frame * list frame := take_first (has_desc d) l.

(** lines 344-353 *)
Definition is_pic (t : pic_type) (f : frame) : bool := match f with FPicture _ _ p => yes (ptype_dec (p_type p) t) | _ => false end.
Definition remove_picture_type (t : pic_type) (l : list frame) : list frame := filter (fun f => negb (is_pic t f)) l.
(** lines 456-487; attached_picture_frame.rs 44-52 *)
Definition new_picture (p : picture) : frame := FPicture (new_header ($"APIC")) UTF8 p.
Definition fl_insert_picture (p : picture) (l : list frame) : list frame * option frame :=
  let '(o, r) := match p_type p with PIcon | POtherIcon => take_first (is_pic (p_type p)) l | _ => (None, l) end in
  (r ++ [new_picture p], o).
