(** Model of the conversions of RIFF INFO lists and AIFF text chunks from and to Tag and of their accessors (lofty/src/iff/wav/tag/mod.rs, iff/aiff/tag/mod.rs), and of
    what the writers make of a Tag (lofty_attr/src/internal.rs, the same in tag/utils.rs, dump_tag). *)
From Verif Require Import TimestampModel IffModel AiffModel.
From Verif Require Export TagModel.

Section Conv.
Context {C : Type}.
Implicit Type t : tag C.

(** [str::trim_matches('\0')] *)
Fixpoint trim_front (s : str) : str := match s with 0 :: s' => trim_front s' | _ => s end.
Definition trim_nulls (s : str) : str := trim_end_nulls (trim_front s).

(** ** RIFF INFO: wav/tag/mod.rs 283-300; the remainder of [split_tag] (264-281) holds nothing *)
Definition item_of_riff (e : str * str) : option tag_item :=
  match from_key RiffInfo (fst e) with Some k => Some (new_item k (VText (trim_nulls (snd e)))) | None => None end.
Definition tag_of_riff (r : riff) : tag C := mkTag RiffInfo [] (filter_map item_of_riff r) None.
(** 302-316 *)
Definition riff_of_item (i : tag_item) : option (str * str) :=
  match value_into_string (it_value i) with
  | Some v => match map_key RiffInfo (it_key i) with Some k => Some (k, v) | None => None end
  | None => None
  end.
Definition riff_of_tag t : riff := filter_map riff_of_item (t_items t).
(** 358-383 *)
Definition riff_ref_item (custom : provider) (i : tag_item) : option (str * str) :=
  match value_into_string (it_value i) with
  | Some v =>
      match map_key RiffInfo (it_key i) with
      | Some k =>
          if ik_eqb (it_key i) KPopularimeter then
            match popm_from_str custom v with Some p => Some (k, to_dec (mapped_value p RiffInfo)) | None => None end
          else Some (k, v)
      | None => None
      end
  | None => None
  end.
Definition riff_ref (custom : provider) t : riff := filter_map (riff_ref_item custom) (t_items t).
(** 129-185: accessors. The five texts are [riff_get], [riff_insert] and [riff_remove] on a key. *)
Definition riff_number (key : str) (r : riff) : option N := match riff_get r key with Some s => parse_uint U32_MAX s | None => None end.
Definition riff_set_number (key : str) (n : N) (r : riff) : riff := riff_insert r key (to_dec n).
Definition riff_date (r : riff) : option timestamp :=
  match riff_get r ($"ICRD") with Some s => match ts_parse (utf8_enc s) Relaxed with Ok o => o | _ => None end | None => None end.
Definition riff_set_date (d : timestamp) (r : riff) : riff := riff_insert r ($"ICRD") (ts_display d).
(** 217-222 *)
Definition riff_contains (r : riff) (key : str) : bool := existsb (fun e => eq_ignore_case (fst e) key) r.

(** ** AIFF text chunks: aiff/tag/mod.rs 260-291 *)
Definition opt_items (k : item_key) (o : option str) : list tag_item := match o with Some s => [new_item k (VText s)] | None => [] end.
Definition list_items (l : list str) : list tag_item := map (fun s => new_item KComment (VText s)) l.
Definition tag_of_aiff (a : aiff_text) : tag C :=
  mkTag AiffText [] (opt_items KTrackTitle (at_name a) ++ opt_items KTrackArtist (at_author a) ++ opt_items KCopyrightMessage (at_copy a) ++
    list_items (match at_anno a with Some l => l | None => [] end) ++ list_items (map ct_text (match at_comments a with Some l => l | None => [] end))) None.
(** 293-308 *)
Definition aiff_of_tag t : aiff_text :=
  let (names, t) := take_strings KTrackTitle t in
  let (authors, t) := take_strings KTrackArtist t in
  let (copies, t) := take_strings KCopyrightMessage t in
  let (annos, _) := take_strings KComment t in
  mkAt (hd_error names) (hd_error authors) (hd_error copies) (match annos with [] => None | _ => Some annos end) None.
(** internal.rs 77-86, utils.rs 93-104 *)
Definition aiff_ref t : aiff_text :=
  mkAt (get_string t KTrackTitle) (get_string t KTrackArtist) (get_string t KCopyrightMessage) (Some (get_strings t KComment)) None.
(** 177-185 *)
Definition is_some {A} (o : option A) : bool := match o with Some _ => true | None => false end.
Definition at_contains (a : aiff_text) (k : item_key) : bool :=
  match k with
  | KTrackTitle => is_some (at_name a) | KTrackArtist => is_some (at_author a) | KCopyrightMessage => is_some (at_copy a)
  | KComment => is_some (at_anno a) || is_some (at_comments a)
  | _ => false
  end.
(** 105-127 *)
Definition at_set_comment (s : str) (a : aiff_text) : aiff_text := mkAt (at_name a) (at_author a) (at_copy a) (Some [s]) (at_comments a).
Definition at_remove_comment (a : aiff_text) : aiff_text := mkAt (at_name a) (at_author a) (at_copy a) None (at_comments a).
End Conv.
