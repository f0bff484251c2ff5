(** Model of Vorbis comments: lofty/src/ogg/tag.rs, ogg/tag/read.rs, ogg/tag/write.rs (packets), ogg/picture_storage.rs. *)
From Verif Require Export Base Str Mode TextModel PictureModel TimestampModel PopmModel TagModel ApeModel.

(** tag.rs 81-88 *)
Record vc := mkVc { vc_vendor : str; vc_items : list (str * str); vc_pics : list (picture * pic_info) }.
Definition vc_default : vc := mkVc [] [] [].
Definition with_vitems (t : vc) (l : list (str * str)) : vc := mkVc (vc_vendor t) l (vc_pics t).
Definition with_vpics (t : vc) (l : list (picture * pic_info)) : vc := mkVc (vc_vendor t) (vc_items t) l.

(** read.rs 253-257, tag.rs 314-321; on the bytes of the key *)
Definition key_byte (b : N) : bool := (0x20 <=? b) && (b <=? 0x7D) && negb (b =? 0x3D).
Definition valid_key (b : bytes) : bool := forallb key_byte b.
Definition verify_key (key : str) : bool := match key with [] => false | _ => valid_key (utf8_enc key) end.

Definition vkey_is (key : str) (i : str * str) : bool := eq_ignore_case (fst i) key.
(** tag.rs 200-226 *)
Definition vc_get (t : vc) (key : str) : option str :=
  if verify_key key then match find (vkey_is key) (vc_items t) with Some (_, v) => Some v | None => None end else None.
Definition vc_get_all (t : vc) (key : str) : list str := map snd (filter (vkey_is key) (vc_items t)).
(** tag.rs 249-281 *)
Definition vc_insert (key v : str) (t : vc) : vc :=
  if verify_key key then with_vitems t (filter (fun i => negb (vkey_is key i)) (vc_items t) ++ [(key, v)]) else t.
Definition vc_push (key v : str) (t : vc) : vc :=
  if verify_key key then with_vitems t (vc_items t ++ [(key, v)]) else t.
(** tag.rs 298-310: the loop over [0..len] and the drained part *)
Fixpoint vremove_loop (todo read split : nat) (key : str) (l : list (str * str)) : list (str * str) * nat :=
  match todo with
  | O => (l, split)
  | S todo =>
      match nth_error l read with
      | None => (l, split)
      | Some i => if vkey_is key i then vremove_loop todo (S read) (S split) key (swap split read l)
                  else vremove_loop todo (S read) split key l
      end
  end.
Definition vc_remove (key : str) (t : vc) : list str * vc :=
  let (l, split) := vremove_loop (length (vc_items t)) 0 0 key (vc_items t) in
  (map snd (firstn split l), with_vitems t (skipn split l)).
Definition vc_removed (key : str) (t : vc) : vc := snd (vc_remove key t).

(** tag.rs 329-443: accessors. The five text accessors are [vc_get], [vc_insert] and [vc_removed] on a key. *)
Definition parse_opt (o : option str) : option N := match o with Some s => parse_uint U32_MAX s | None => None end.
Definition get_or (t : vc) (a b : str) : option str := match vc_get t a with Some v => Some v | None => vc_get t b end.
Definition VTRACK := $"TRACKNUMBER".
Definition VTRACK2 := $"TRACKNUM".
Definition VTRACKTOTAL := $"TRACKTOTAL".
Definition VTRACKTOTAL2 := $"TOTALTRACKS".
Definition VDISC := $"DISCNUMBER".
Definition VDISCTOTAL := $"DISCTOTAL".
Definition VDISCTOTAL2 := $"TOTALDISCS".
Definition VDATE := $"DATE".
Definition VYEAR := $"YEAR".
Definition vc_track t := parse_opt (get_or t VTRACK VTRACK2).
Definition vc_remove_track t := vc_removed VTRACK2 (vc_removed VTRACK t).
Definition vc_set_track n t := vc_insert VTRACK (to_dec n) (vc_remove_track t).
Definition vc_track_total t := parse_opt (get_or t VTRACKTOTAL VTRACKTOTAL2).
Definition vc_set_track_total n t := vc_removed VTRACKTOTAL2 (vc_insert VTRACKTOTAL (to_dec n) t).
Definition vc_remove_track_total t := vc_removed VTRACKTOTAL2 (vc_removed VTRACKTOTAL t).
Definition vc_disk t := parse_opt (vc_get t VDISC).
Definition vc_set_disk n t := vc_insert VDISC (to_dec n) t.
Definition vc_remove_disk t := vc_removed VDISC t.
Definition vc_disk_total t := parse_opt (get_or t VDISCTOTAL VDISCTOTAL2).
Definition vc_set_disk_total n t := vc_removed VDISCTOTAL2 (vc_insert VDISCTOTAL (to_dec n) t).
Definition vc_remove_disk_total t := vc_removed VDISCTOTAL2 (vc_removed VDISCTOTAL t).
Definition vc_date t : option timestamp :=
  match get_or t VDATE VYEAR with Some d => match ts_parse (utf8_enc d) Relaxed with Ok o => o | _ => None end | None => None end.
Definition vc_set_date d t := vc_removed VYEAR (vc_insert VDATE (ts_display d) t).
Definition vc_remove_date t := vc_removed VYEAR (vc_removed VDATE t).
(** tag.rs 446-492 *)
Definition vc_len (t : vc) : N := lenN (vc_items t) + lenN (vc_pics t).
Definition vc_contains (t : vc) (key : str) : bool := existsb (vkey_is key) (vc_items t).
Definition vc_clear (t : vc) : vc := mkVc (vc_vendor t) [] [].

(** picture_storage.rs 24-52, 107-114: the list of pictures. [Err] from [insert_picture] comes after the removal. *)
Definition is_icon (p : pic_type) : bool := pt_eqb p PIcon || pt_eqb p POtherIcon.
Fixpoint remove_first_type (p : pic_type) (l : list (picture * pic_info)) : option (picture * pic_info) * list (picture * pic_info) :=
  match l with
  | [] => (None, [])
  | x :: l' => if pt_eqb (p_type (fst x)) p then (Some x, l') else let (r, l'') := remove_first_type p l' in (r, x :: l'')
  end.
Definition ps_insert (p : picture) (i : option pic_info) (l : list (picture * pic_info))
  : res pic_error (option (picture * pic_info)) * list (picture * pic_info) :=
  let (ret, l) := (if is_icon (p_type p) then remove_first_type (p_type p) l else (None, l)) in
  match (match i with Some i => Ok i | None => info_from_picture p end) with
  | Ok i => (Ok ret, l ++ [(p, i)])
  | Err e => (Err e, l)
  | Panic => (Panic, l)
  end.
Definition ps_set (n : N) (p : picture) (i : pic_info) (l : list (picture * pic_info)) : list (picture * pic_info) :=
  if lenN l <=? n then snd (ps_insert p (Some i) l) else update (N.to_nat n) (p, i) l.
Definition ps_remove_type (p : pic_type) (l : list (picture * pic_info)) : list (picture * pic_info) :=
  filter (fun x => negb (pt_eqb (p_type (fst x)) p)) l.

(** ** Reading: read.rs 21-251 *)
Record vopts := mkVo { vo_cover : bool; vo_implicit : bool; vo_mode : pmode }.
Inductive vc_error := VEof | VSize | VDecode | VPicture | VKey | VTooMuch | VFormat | VPage.
Definition vrd {A} (o : option A) : res vc_error A := match o with Some x => Ok x | None => Err VEof end.
Definition vdec (b : bytes) : res vc_error str := match utf8_decode b with Ok s => Ok s | _ => Err VDecode end.

(** lines 41-66; the bytes as UTF-16 units never contain surrogates *)
Definition read_vendor (m : pmode) (b : bytes) : res vc_error str :=
  match utf8_decode b with
  | Ok v => Ok v
  | _ => if is_strict m then Err VDecode else match utf16_decode b with Ok v => Ok v | _ => Err VDecode end
  end.

Definition MBP := $"METADATA_BLOCK_PICTURE".
Definition COVERART := $"COVERART".
(** [value.splitn(2, '/')] and the two parses, lines 172-175 *)
Definition number_pair (v : str) : option N * option N :=
  match split_once 47 v with
  | Some (a, b) => (parse_uint U32_MAX a, parse_uint U32_MAX b)
  | None => (parse_uint U32_MAX v, None)
  end.
(** a failure that only counts in strict mode: the field is discarded otherwise *)
Definition strictly {E A} (m : pmode) (e : E) (t : A) : res E A := if is_strict m then Err e else Ok t.

(** lines 92-247: one comment *)
Definition read_comment (o : vopts) (t : vc) (c : bytes) : res vc_error vc :=
  match split_once 61 c with
  | None => Ok t
  | Some (k, v) =>
      if eq_ignore_case k MBP then
        if negb (vo_cover o) then Ok t else
        match from_flac_bytes v true (vo_mode o) with
        | Ok p => Ok (with_vpics t (vc_pics t ++ [p]))
        | Err _ => strictly (vo_mode o) VPicture t
        | Panic => Panic
        end
      else if eq_ignore_case k COVERART then
        if negb (vo_cover o) then Ok t else
        match b64_decode v with
        | Some d => match mimetype_from_bin d with
                    | Ok m => Ok (with_vpics t (vc_pics t ++ [(mkPic POther (Some m) None d, info_default)]))
                    | Err _ => Ok (with_vpics t (vc_pics t ++ [(mkPic POther (Some (UnknownMime ($"image/"))) None d, info_default)]))
                    | Panic => Panic
                    end
        | None => strictly (vo_mode o) VPicture t
        end
      else if eq_ignore_case k VTRACK || eq_ignore_case k VDISC then
        match vdec v with
        | Ok v =>
            let is_track := eq_ignore_case k VTRACK in
            let key := if is_track then VTRACK else VDISC in
            let raw t := with_vitems t (vc_items t ++ [(key, v)]) in
            if negb (vo_implicit o) then Ok (raw t) else
            let (current, total) := number_pair v in
            let t := match total with Some n => if is_track then vc_set_track_total n t else vc_set_disk_total n t | None => t end in
            Ok (match current with Some n => if is_track then vc_set_track n t else vc_set_disk n t | None => raw t end)
        | Err e => strictly (vo_mode o) e t
        | Panic => Panic
        end
      else if valid_key k then
        match vdec v with
        | Ok v => Ok (with_vitems t (vc_items t ++ [(k, v)]))
        | Err e => strictly (vo_mode o) e t
        | Panic => Panic
        end
      else strictly (vo_mode o) VKey t
  end.
(** lines 79-90: the loop over the comments; [len] is what is left of the declared length *)
Fixpoint read_comment_list (n : nat) (o : vopts) (len : N) (r : bytes) (t : vc) : res vc_error vc :=
  match n with
  | O => Ok t
  | S n =>
      let? (clen, r) := vrd (read_le 4 r) in
      if len <? clen then Err VSize else
      let? (c, r) := vrd (read_exact clen r) in
      let? t := read_comment o t c in
      read_comment_list n o (len - clen) r t
  end.
(** lines 21-78. [len] is the length the caller declares. *)
Definition read_comments (o : vopts) (len : N) (r : bytes) : res vc_error vc :=
  let? (vlen, r) := vrd (read_le 4 r) in
  if len <? vlen then Err VSize else
  let? (vb, r) := vrd (read_exact vlen r) in
  let len := len - vlen in
  let? vendor := read_vendor (vo_mode o) vb in
  let? (n, r) := vrd (read_le 4 r) in
  if (len / 4) mod 2 ^ 32 <? n then Err VSize else
  read_comment_list (N.to_nat n) o len r (mkVc vendor [] []).

(** ** Writing: write.rs 131-224. The count is a [u32]. *)
Fixpoint create_comments (items : list (str * str)) : res vc_error (list bytes) :=
  match items with
  | [] => Ok []
  | (k, v) :: l =>
      match v with
      | [] => create_comments l
      | _ =>
          let b := utf8_enc (k ++ [61] ++ v) in
          if U32_MAX <? lenN b then Err VTooMuch else
          let? r := create_comments l in Ok (b :: r)
      end
  end.
Fixpoint create_pictures (l : list (picture * pic_info)) : res vc_error (list bytes) :=
  match l with
  | [] => Ok []
  | (p, i) :: l =>
      let b := MBP ++ [61] ++ as_flac_bytes p i true in
      if U32_MAX <? lenN b then Err VTooMuch else
      let? r := create_pictures l in Ok (b :: r)
  end.
Definition comment_bytes (b : bytes) : bytes := le_enc 4 (lenN b) ++ b.
Definition vendor_bytes (v : str) : bytes := le_enc 4 (lenN (utf8_enc v) mod 2 ^ 32) ++ utf8_enc v.
Definition create_metadata_packet (t : vc) (sig : bytes) (framing : bool) : res vc_error bytes :=
  let? a := create_comments (vc_items t) in
  let? b := create_pictures (vc_pics t) in
  if U32_MAX <? lenN (a ++ b) then Panic else
  Ok (sig ++ vendor_bytes (vc_vendor t) ++ le_enc 4 (lenN (a ++ b)) ++ flat_map comment_bytes (a ++ b) ++ (if framing then [1] else [])).
(** tag.rs 717-725 *)
Definition vc_dump (t : vc) : res vc_error bytes := create_metadata_packet t [] false.

(** ** Conversions: tag.rs 534-751. [custom] is the popularimeter provider the application registered. *)
Definition RATING_PREFIX := $"RATING:".
Fixpoint starts_with (p s : list N) : bool :=
  match p, s with
  | [], _ => true
  | x :: p, y :: s => (x =? y) && starts_with p s
  | _, [] => false
  end.
(** [None]: the item is retained *)
Definition split_vc_item (custom : provider) (i : str * str) : option tag_item :=
  let (k, v) := i in
  match from_key VorbisComments k with
  | Some ik => Some (new_item ik (VText v))
  | None =>
      if starts_with RATING_PREFIX k then
        match split_once 58 k with
        | None => None
        | Some (_, email) =>
            match parse_uint U8_MAX v with
            | None => None
            | Some n => match popm_mapped custom email VorbisComments n 0 with
                        | Some p => Some (new_item KPopularimeter (VText (popm_display p)))
                        | None => None
                        end
            end
        end
      else None
  end.
Definition vc_split {C} (custom : provider) (t : vc) : vc * tag C :=
  let retained := filter (fun i => match split_vc_item custom i with Some _ => false | None => true end) (vc_items t) in
  let items := filter_map (split_vc_item custom) (vc_items t) in
  let items := if existsb (fun i => ik_eqb (it_key i) KEncoderSoftware) items then items
               else items ++ [new_item KEncoderSoftware (VText (vc_vendor t))] in
  (mkVc (vc_vendor t) retained [], mkTag VorbisComments (map fst (vc_pics t)) items None).
(** tag.rs 617-664: one item *)
Definition merge_vc_item (custom : provider) (i : tag_item) : option (str * str) :=
  match value_into_string (it_value i) with
  | None => None
  | Some v =>
      match (if ik_eqb (it_key i) KFlagCompilation
             then match flag_item v with Some b => Some (if b then $"1" else $"0") | None => None end
             else Some v) with
      | None => None
      | Some v =>
          match map_key VorbisComments (it_key i) with
          | None => None
          | Some key =>
              if ik_eqb (it_key i) KPopularimeter then
                match popm_from_str custom v with
                | None => None
                | Some p =>
                    let value := to_dec (mapped_value p VorbisComments) in
                    match pm_email p with
                    | Some email => if valid_key (utf8_enc email) then Some (key ++ [58] ++ email, value) else None
                    | None => Some (key, value)
                    end
                end
              else Some (key, v)
          end
      end
  end.
(** [PictureInformation::from_picture] can panic (C60); then the conversion does. *)
Fixpoint merge_pictures (l : list picture) : res pic_error (list (picture * pic_info)) :=
  match l with
  | [] => Ok []
  | p :: l => match info_from_picture p with
              | Ok i => let? r := merge_pictures l in Ok ((p, i) :: r)
              | Err _ => merge_pictures l
              | Panic => Panic
              end
  end.
Definition vc_merge {C} (custom : provider) (rem : vc) (t : tag C) : res pic_error vc :=
  let (enc, t) := take KEncoderSoftware t in
  let vendor := match enc with i :: _ => match it_value i with VText s => s | _ => vc_vendor rem end | [] => vc_vendor rem end in
  let? pics := merge_pictures (t_pictures t) in
  Ok (mkVc vendor (vc_items rem ++ filter_map (merge_vc_item custom) (t_items t)) (vc_pics rem ++ pics)).
Definition tag_of_vc {C} (custom : provider) (t : vc) : tag C := snd (vc_split custom t).
Definition vc_of_tag {C} (custom : provider) (t : tag C) : res pic_error vc := vc_merge custom vc_default t.
(** tag.rs 728-751: what is saved directly from a [Tag] *)
Definition ref_vc_item (i : tag_item) : option (str * str) :=
  match value_into_string (it_value i) with
  | Some v => match map_key VorbisComments (it_key i) with Some k => Some (k, v) | None => None end
  | None => None
  end.
Fixpoint ref_pictures (l : list picture) : res pic_error (list (picture * pic_info)) :=
  match l with
  | [] => Ok []
  | p :: l => let? r := ref_pictures l in
              match info_from_picture p with
              | Ok i => Ok ((p, i) :: r)
              | Err _ => Ok ((p, info_default) :: r)
              | Panic => Panic
              end
  end.
Definition vc_ref_of_tag {C} (t : tag C) : res pic_error vc :=
  let? pics := ref_pictures (t_pictures t) in
  Ok (mkVc (match get_string t KEncoderSoftware with Some s => s | None => [] end) (filter_map ref_vc_item (t_items t)) pics).
