(** Model of [Hash] and [Ord] of ID3v2 frames: frame/mod.rs 107 (derived), header/mod.rs 12 and 65, the hand written [Hash] of items/*.rs (next to
    each hand written [PartialEq]), tag/items/timestamp.rs 26, picture/mod.rs 43, 136 and 590, [Ord] of items/event_timing_codes_frame.rs 202-212 and
    items/timestamp_frame.rs 22-32. What a value gives to the hasher is a list of the calls made to it: numbers (discriminants, lengths and integers),
    strings and byte slices. Discriminants are numbered in the order of the declarations; the standard library only promises that they differ. *)
From Verif Require Export FrameModel.

Inductive call := HN (n : N) | HS (s : str) | HB (b : bytes).
Definition h_bool (b : bool) : list call := [HN (if b then 1 else 0)].
Definition h_opt {A} (h : A -> list call) (o : option A) : list call := match o with None => [HN 0] | Some a => HN 1 :: h a end.
Definition h_list {A} (h : A -> list call) (l : list A) : list call := HN (lenN l) :: flat_map h l.
Definition h_num (n : N) : list call := [HN n].
Definition h_str (s : str) : list call := [HS s].
Definition h_bytes (b : bytes) : list call := [HB b].
(** header/mod.rs 12-17, 65-73; frame/mod.rs 320-364 *)
Definition h_id (i : frame_id) : list call := match i with Valid s => [HN 0; HS s] | Outdated s => [HN 1; HS s] end.
Definition h_flags (f : frame_flags) : list call :=
  h_bool (ff_tag_alter f) ++ h_bool (ff_file_alter f) ++ h_bool (ff_read_only f) ++ h_opt h_num (ff_group f) ++ h_bool (ff_compression f) ++
  h_opt h_num (ff_encryption f) ++ h_bool (ff_unsync f) ++ h_opt h_num (ff_length f).
Definition h_header (h : frame_header) : list call := h_id (fh_id h) ++ h_flags (fh_flags h).
Definition h_enc (e : encoding) : list call := [HN (enc_to_u8 e)].
(** picture/mod.rs *)
Definition h_mime (m : mime_type) : list call :=
  match m with Png => [HN 0] | Jpeg => [HN 1] | Tiff => [HN 2] | Bmp => [HN 3] | Gif => [HN 4] | UnknownMime s => [HN 5; HS s] end.
Definition h_ptype (p : pic_type) : list call := match p with PUndefined n => [HN 21; HN n] | _ => [HN (pic_as_u8 p)] end.
Definition h_picture (p : picture) : list call := h_ptype (p_type p) ++ h_opt h_mime (p_mime p) ++ h_opt h_str (p_desc p) ++ h_bytes (p_data p).
Definition h_pair (p : str * str) : list call := h_str (fst p) ++ h_str (snd p).
Definition h_event (e : event) : list call := h_num (ev_type e) ++ h_num (ev_time e).
Definition h_format (f : ts_format) : list call := [HN (ts_format_u8 f)].
Definition h_time (t : timestamp) : list call :=
  h_num (ts_year t) ++ h_opt h_num (ts_month t) ++ h_opt h_num (ts_day t) ++ h_opt h_num (ts_hour t) ++ h_opt h_num (ts_minute t) ++ h_opt h_num (ts_second t).
(** frame/mod.rs 107-150: the discriminant, then the [Hash] of the frame: language_frame.rs 136-141 and 269-274, text_information_frame.rs 31-35,
    extended_text_frame.rs 42-46, url_link_frame.rs 24-28, extended_url_frame.rs 40-44, popularimeter.rs 43-47,
    relative_volume_adjustment_frame.rs 110-114, unique_file_identifier.rs 29-33, chapter_frame.rs 58-62, table_of_contents_frame.rs 95-99. *)
Definition h_frame (f : frame) : list call :=
  match f with
  | FComment _ _ l d _ => HN 0 :: h_bytes l ++ h_str d
  | FUnsync _ _ l d _ => HN 1 :: h_bytes l ++ h_str d
  | FText h _ _ => HN 2 :: h_id (fh_id h)
  | FUserText _ _ d _ => HN 3 :: h_str d
  | FUrl h _ => HN 4 :: h_id (fh_id h)
  | FUserUrl _ _ d _ => HN 5 :: h_str d
  | FPicture h e p => HN 6 :: h_header h ++ h_enc e ++ h_picture p
  | FPopm _ m _ _ => HN 7 :: h_str m
  | FKeyValue h e l => HN 8 :: h_header h ++ h_enc e ++ h_list h_pair l
  | FRva2 _ i _ => HN 9 :: h_str i
  | FUfid _ o _ => HN 10 :: h_str o
  | FOwne h e p d s => HN 11 :: h_header h ++ h_enc e ++ h_str p ++ h_str d ++ h_str s
  | FEtco h t l => HN 12 :: h_header h ++ h_format t ++ h_list h_event l
  | FPriv h o d => HN 13 :: h_header h ++ h_str o ++ h_bytes d
  | FTime h e t => HN 14 :: h_header h ++ h_enc e ++ h_time t
  | FChap _ i _ _ _ => HN 15 :: h_str i
  | FCtoc _ i _ _ _ _ => HN 16 :: h_str i
  | FBin h d => HN 17 :: h_header h ++ h_bytes d
  end.
(** [Ord] *)
Definition ev_cmp (a b : event) : comparison := ev_time a ?= ev_time b.
(** The part of a frame of variant [Timestamp] that [Ord] looks at. *)
Definition time_cmp (a b : frame_header * encoding * timestamp) : comparison := ts_cmp (snd a) (snd b).
