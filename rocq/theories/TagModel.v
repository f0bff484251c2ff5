(** Model of lofty/src/tag/mod.rs (Tag), the items of lofty/src/tag/item.rs and the conversions between Tag and Id3v1Tag
    (lofty/src/id3/v1/tag.rs). *)
From Verif Require Export Base Str Mode TagType ItemKeyModel PictureModel TimestampModel PopmModel Id3v1Model.

(** item.rs 973-985, 1054-1061; a language is three bytes. *)
Inductive item_value := VText (s : str) | VLocator (s : str) | VBinary (b : bytes).
Record tag_item := mkItem { it_lang : bytes; it_desc : str; it_key : item_key; it_value : item_value }.
Definition UNKNOWN_LANGUAGE : bytes := $"XXX".
Definition new_item (k : item_key) (v : item_value) : tag_item := mkItem UNKNOWN_LANGUAGE [] k v.

Definition value_text (v : item_value) : option str := match v with VText s => Some s | _ => None end.
Definition value_locator (v : item_value) : option str := match v with VLocator s => Some s | _ => None end.
Definition value_binary (v : item_value) : option bytes := match v with VBinary b => Some b | _ => None end.
Definition value_into_string (v : item_value) : option str := match v with VText s | VLocator s => Some s | _ => None end.
Definition value_is_empty (v : item_value) : bool := match v with VText [] | VLocator [] | VBinary [] => true | _ => false end.

(** id3/v1/constants.rs 200-210 *)
Definition VALID_ITEMKEYS : list item_key :=
  [KTrackTitle; KTrackArtist; KAlbumTitle; KComment; KTrackNumber; KGenre; KYear; KRecordingDate].
(** item.rs 1168-1176: [TagItem::re_map], depends on the key only. *)
Definition supports (tt : tag_type) (k : item_key) : bool :=
  if tt_eqb tt Id3v1 then existsb (ik_eqb k) VALID_ITEMKEYS
  else match map_key tt k with Some _ => true | None => false end.
(** item.rs 1072-1082 *)
Definition new_checked (tt : tag_type) (k : item_key) (v : item_value) : option tag_item :=
  match map_key tt k with Some _ => Some (new_item k v) | None => None end.

(** mod.rs 101-106. [C] is the type of companion tags (companion_tag.rs), which the functions here only keep or drop. *)
Record tag (C : Type) := mkTag { t_type : tag_type; t_pictures : list picture; t_items : list tag_item; t_companion : option C }.
Arguments mkTag {C}. Arguments t_type {C}. Arguments t_pictures {C}. Arguments t_items {C}. Arguments t_companion {C}.

Section Tag.
Context {C : Type}.
Implicit Type t : tag C.

Definition with_items t (l : list tag_item) : tag C := mkTag (t_type t) (t_pictures t) l (t_companion t).
Definition with_pictures t (l : list picture) : tag C := mkTag (t_type t) l (t_items t) (t_companion t).

(** lines 221-229 *)
Definition tag_new (tt : tag_type) : tag C := mkTag tt [] [] None.
(** lines 540-545: [Vec::retain] *)
Definition retain (f : tag_item -> bool) t : tag C := with_items t (filter f (t_items t)).
(** lines 241-249 *)
Definition re_map (tt : tag_type) t : tag C :=
  let t := retain (fun i => supports tt (it_key i)) (mkTag (t_type t) (t_pictures t) (t_items t) None) in
  mkTag tt (t_pictures t) (t_items t) (t_companion t).
(** lines 326-337 *)
Definition get t (k : item_key) : option tag_item := find (fun i => ik_eqb (it_key i) k) (t_items t).
Definition get_string t (k : item_key) : option str :=
  match get t k with Some i => value_text (it_value i) | None => None end.
(** lines 339-342 *)
Definition get_u32 t (k : item_key) : option N :=
  match get_string t k with Some s => parse_uint U32_MAX s | None => None end.
(** lines 347-361 *)
Definition get_binary t (k : item_key) (convert : bool) : option bytes :=
  match get t k with
  | Some i => match it_value i with
              | VText s | VLocator s => if convert then Some (utf8_enc s) else None
              | VBinary b => Some b
              end
  | None => None
  end.
(** lines 366-417 *)
Definition insert_unchecked (i : tag_item) t : tag C :=
  with_items t (filter (fun j => negb (ik_eqb (it_key j) (it_key i))) (t_items t) ++ [i]).
Definition insert (i : tag_item) t : bool * tag C :=
  if supports (t_type t) (it_key i) then (true, insert_unchecked i t) else (false, t).
Definition push_unchecked (i : tag_item) t : tag C := with_items t (t_items t ++ [i]).
Definition push (i : tag_item) t : bool * tag C :=
  if supports (t_type t) (it_key i) then (true, push_unchecked i t) else (false, t).
Definition insert_text (k : item_key) (s : str) t : bool * tag C := insert (new_item k (VText s)) t.
(** lines 533-535, 548-550 *)
Definition remove_key (k : item_key) t : tag C := with_items t (filter (fun i => negb (ik_eqb (it_key i) k)) (t_items t)).
Definition remove_empty t : tag C := with_items t (filter (fun i => negb (value_is_empty (it_value i))) (t_items t)).
(** lines 491-530 *)
Definition get_items t (k : item_key) : list tag_item := filter (fun i => ik_eqb (it_key i) k) (t_items t).
Fixpoint filter_map {A B} (f : A -> option B) (l : list A) : list B :=
  match l with [] => [] | x :: l' => match f x with Some y => y :: filter_map f l' | None => filter_map f l' end end.
Definition get_strings t (k : item_key) : list str :=
  filter_map (fun i => if ik_eqb (it_key i) k then value_text (it_value i) else None) (t_items t).

(** [slice::swap] *)
Fixpoint update {A} (n : nat) (x : A) (l : list A) : list A :=
  match l, n with
  | [], _ => []
  | _ :: l', O => x :: l'
  | y :: l', S n' => y :: update n' x l'
  end.
Definition swap {A} (i j : nat) (l : list A) : list A :=
  match nth_error l i, nth_error l j with Some x, Some y => update i y (update j x l) | _, _ => l end.
(** lines 460-480. The filter may have state ([FnMut]): [f s i] is its answer and its next state. [read] runs over
    [0..len]; the result is the vector and [split_idx] after the loop. *)
Fixpoint take_loop {St : Type} (todo read split : nat) (k : item_key) (f : St -> tag_item -> bool * St) (s : St) (l : list tag_item)
  : list tag_item * nat :=
  match todo with
  | O => (l, split)
  | S todo =>
      match nth_error l read with
      | None => (l, split)
      | Some i =>
          if ik_eqb (it_key i) k then
            let (b, s) := f s i in
            if b then take_loop todo (S read) (S split) k f s (swap split read l)
            else take_loop todo (S read) split k f s l
          else take_loop todo (S read) split k f s l
      end
  end.
(** The drained items and the tag left (after the iterator was dropped). *)
Definition take_filter {St : Type} (k : item_key) (f : St -> tag_item -> bool * St) (s : St) t : list tag_item * tag C :=
  let (l, split) := take_loop (length (t_items t)) 0 0 k f s (t_items t) in
  (firstn split l, with_items t (skipn split l)).
(** lines 430-432, 486-488 *)
Definition take (k : item_key) t := take_filter k (fun (_ : unit) _ => (true, Coq.Init.Datatypes.tt)) Coq.Init.Datatypes.tt t.
Definition take_strings (k : item_key) t : list str * tag C :=
  let (l, t) := take k t in (filter_map (fun i => value_into_string (it_value i)) l, t).

(** lines 320-323 *)
Definition ratings (custom : provider) t : list popm := filter_map (popm_from_str custom) (get_strings t KPopularimeter).

(** lines 561-661; [None] from [remove_picture] is the panic of [Vec::remove]. *)
Definition get_picture_type t (p : pic_type) : option picture := find (fun x => pt_eqb (p_type x) p) (t_pictures t).
Definition push_picture (p : picture) t : tag C := with_pictures t (t_pictures t ++ [p]).
Definition remove_picture_type (p : pic_type) t : tag C := with_pictures t (filter (fun x => negb (pt_eqb (p_type x) p)) (t_pictures t)).
Definition set_picture (n : N) (p : picture) t : tag C :=
  if lenN (t_pictures t) <=? n then push_picture p t else with_pictures t (update (N.to_nat n) p (t_pictures t)).
Definition remove_picture (n : N) t : option (picture * tag C) :=
  match nth_error (t_pictures t) (N.to_nat n) with
  | Some p => Some (p, with_pictures t (takeN n (t_pictures t) ++ dropN (n + 1) (t_pictures t)))
  | None => None
  end.

(** lines 664-692; [clear] does not touch the companion tag. *)
Definition tag_len t : N := lenN (t_items t) + lenN (t_pictures t).
Definition contains t (k : item_key) : bool := existsb (fun i => ik_eqb (it_key i) k) (t_items t).
Definition tag_is_empty t : bool := match t_items t, t_pictures t with [], [] => true | _, _ => false end.
Definition clear t : tag C := mkTag (t_type t) [] [] (t_companion t).

(** lines 125-205: accessors. The five text accessors are [get_string], [insert_text] and [retain] on a key. *)
Definition tag_date t : option timestamp :=
  match (match get_string t KRecordingDate with Some s => Some s | None => get_string t KYear end) with
  | Some d => match ts_parse (utf8_enc d) Relaxed with Ok o => o | _ => None end
  | None => None
  end.
Definition set_date (d : timestamp) t : tag C := snd (insert_text KRecordingDate (ts_display d) (remove_key KYear t)).
Definition remove_date t : tag C := remove_key KRecordingDate (remove_key KYear t).
Definition set_number (k : item_key) (n : N) t : tag C := snd (insert_text k (to_dec n) t).

(** ** id3/v1/tag.rs 295-327: Id3v1Tag to Tag. *)
Definition add_text (k : item_key) (o : option str) t : tag C :=
  match o with Some s => snd (insert_text k s t) | None => t end.
Definition tag_of_v1 (v : id3v1) : tag C :=
  let t := tag_new Id3v1 in
  let t := add_text KTrackTitle (v1_title v) t in
  let t := add_text KTrackArtist (v1_artist v) t in
  let t := add_text KAlbumTitle (v1_album v) t in
  let t := add_text KYear (option_map to_dec (v1_year v)) t in
  let t := add_text KComment (v1_comment v) t in
  let t := match v1_track v with Some n => push_unchecked (new_item KTrackNumber (VText (to_dec n))) t | None => t end in
  match v1_genre v with
  | Some g => match nth_error GENRES (N.to_nat g) with Some s => snd (insert_text KGenre s t) | None => t end
  | None => t
  end.

(** lines 345-376: Tag to Id3v1Tag. *)
Fixpoint genre_position (i : N) (gs : list str) (g : str) : option N :=
  match gs with [] => None | x :: gs' => if list_eqb x g then Some i else genre_position (i + 1) gs' g end.
Definition v1_year_of t : option N :=
  match (match get_string t KYear with Some y => parse_uint U16_MAX y | None => None end) with
  | Some y => Some y
  | None => match tag_date t with Some d => Some (ts_year d) | None => None end
  end.
Definition v1_track_of t : option N := match get_string t KTrackNumber with Some s => parse_uint U8_MAX s | None => None end.
Definition v1_genre_of t : option N :=
  match get_string t KGenre with
  | Some g => match genre_position 0 GENRES g with Some p => Some (p mod 256) | None => parse_uint U8_MAX g end
  | None => None
  end.
Definition v1_of_tag t : id3v1 :=
  let (a, t) := take_strings KTrackTitle t in
  let (b, t) := take_strings KTrackArtist t in
  let (c, t) := take_strings KAlbumTitle t in
  let year := v1_year_of t in
  let (d, t) := take_strings KComment t in
  mkV1 (hd_error a) (hd_error b) (hd_error c) year (hd_error d) (v1_track_of t) (v1_genre_of t).
(** lines 399-428: a Tag written directly as ID3v1. *)
Definition v1_ref_of_tag t : id3v1 :=
  mkV1 (get_string t KTrackTitle) (get_string t KTrackArtist) (get_string t KAlbumTitle) (v1_year_of t)
    (get_string t KComment) (v1_track_of t) (v1_genre_of t).
End Tag.
