(** Model of lofty/src/mp4/ilst/mod.rs (Ilst: the interface and the conversions to and from Tag), ilst/advisory_rating.rs and
    the conversion of item keys to atom identifiers in mp4/atom_info.rs.
    Simplified: one value and a list of one value are the same; the companion of a Tag is either an Ilst or something else. *)
From Verif Require Export Mp4Model TagModel.
From Verif Require ApeModel.

Notation ilst := (list atom).
(** lines 36-44 *)
Definition TITLE : ident := Fourcc (0xA9 :: $"nam").
Definition ARTIST : ident := Fourcc (0xA9 :: $"ART").
Definition ALBUM : ident := Fourcc (0xA9 :: $"alb").
Definition GENRE : ident := gen_ident.
Definition COMMENT : ident := Fourcc (0xA9 :: $"cmt").
Definition DAY : ident := Fourcc (0xA9 :: $"day").
Definition RTNG : ident := Fourcc ($"rtng").
Definition TRKN : ident := Fourcc ($"trkn").
Definition DISK : ident := Fourcc ($"disk").

(** lines 163-165 *)
Definition ilst_get (i : ident) (l : ilst) : option atom := find (fun a => ident_eqb (at_ident a) i) l.
(** the first value of the first atom *)
Definition first_value (i : ident) (l : ilst) : option adata :=
  match ilst_get i l with Some a => hd_error (at_data a) | None => None end.
(** lines 269-286: the loop, and the atoms taken and left *)
Fixpoint remove_loop (todo read split : nat) (i : ident) (l : ilst) : ilst * nat :=
  match todo with
  | O => (l, split)
  | S todo =>
      match nth_error l read with
      | None => (l, split)
      | Some a => if ident_eqb (at_ident a) i then remove_loop todo (S read) (S split) i (swap split read l)
                  else remove_loop todo (S read) split i l
      end
  end.
Definition ilst_remove (i : ident) (l : ilst) : ilst * ilst :=
  let (l, split) := remove_loop (length l) 0 0 i l in (firstn split l, skipn split l).
Definition removed (i : ident) (l : ilst) : ilst := snd (ilst_remove i l).
(** lines 241-244 *)
Definition replace_atom (a : atom) (l : ilst) : ilst := removed (at_ident a) l ++ [a].
(** lines 323-333 *)
Definition data_pictures (ds : list adata) : list picture := TagModel.filter_map pic_of ds.
Definition ilst_pictures (l : ilst) : option (list picture) := option_map (fun a => data_pictures (at_data a)) (ilst_get covr_ident l).
(** lines 388-391 *)
Definition remove_pictures (l : ilst) : ilst :=
  filter (fun a => match at_data a with d :: _ => negb (is_pic d) | [] => true end) l.
(** lines 410-433 *)
Definition set_flag (i : ident) (b : bool) (l : ilst) : ilst :=
  if negb b then removed i l else replace_atom (mkAtom i [ABool b]) l.
Definition get_flag (i : ident) (l : ilst) : option bool := match first_value i l with Some (ABool b) => Some b | _ => None end.
(** lines 85-87 *)
Definition is_flag (i : ident) (l : ilst) : bool := match get_flag i l with Some b => b | None => false end.

(** advisory_rating.rs: a rating is the number it is written as (30-36); 39-50 *)
Inductive rating := Inoffensive | Explicit | Clean.
Definition rating_u8 (r : rating) : N := match r with Inoffensive => 0 | Explicit => 1 | Clean => 2 end.
Definition rating_of (n : N) : option rating :=
  if n =? 0 then Some Inoffensive else if (n =? 1) || (n =? 4) then Some Explicit else if n =? 2 then Some Clean else None.
(** lines 444-463 *)
Definition rating_byte (d : adata) : option N :=
  match d with
  | ASigned z => if (0 <=? z)%Z && (z <=? 255)%Z then Some (Z.to_N z) else None
  | AUnknown _ b => hd_error b
  | _ => None
  end.
Definition data_rating (d : adata) : option rating := match rating_byte d with Some n => rating_of n | None => None end.
Definition advisory_rating (l : ilst) : option rating :=
  match ilst_get RTNG l with Some a => hd_error (TagModel.filter_map data_rating (at_data a)) | None => None end.
Definition set_advisory_rating (r : rating) (l : ilst) : ilst := replace_atom (mkAtom RTNG [ASigned (Z.of_N (rating_u8 r))]) l.

(** lines 466-484 *)
Definition byte_at (d : bytes) (n : N) : N := nth (N.to_nat n) d 0.
Definition extract_number (i : ident) (size : N) (l : ilst) : option N :=
  match first_value i l with
  | Some (AUnknown c d) => if (c =? DT_RESERVED) && (size <=? lenN d) then Some (be_dec [byte_at d (size - 2); byte_at d (size - 1)]) else None
  | _ => None
  end.
(** lines 46-72: the text accessors *)
Definition acc_text (i : ident) (l : ilst) : option str := match first_value i l with Some (AUtf8 s) | Some (AUtf16 s) => Some s | _ => None end.
Definition set_text (i : ident) (s : str) (l : ilst) : ilst := replace_atom (mkAtom i [AUtf8 s]) l.
(** lines 512-589: [i] is [trkn] or [disk] *)
Definition number (i : ident) (l : ilst) : option N := extract_number i 4 l.
Definition total (i : ident) (l : ilst) : option N := extract_number i 6 l.
Definition or0 (o : option N) : N := match o with Some n => n | None => 0 end.
Definition u16_be (n : N) : bytes := be_enc 2 (n mod 2 ^ 16).
Definition pair_atom (i : ident) (n t : N) : atom := mkAtom i [AUnknown DT_RESERVED ([0; 0] ++ u16_be n ++ u16_be t)].
Definition set_number (i : ident) (n : N) (l : ilst) : ilst := replace_atom (pair_atom i n (or0 (total i l))) l.
Definition set_total (i : ident) (t : N) (l : ilst) : ilst := replace_atom (pair_atom i (or0 (number i l)) t) l.
Definition remove_total (i : ident) (l : ilst) : ilst :=
  let l' := removed i l in match number i l with Some n => replace_atom (pair_atom i n 0) l' | None => l' end.
(** lines 591-612 *)
Definition ilst_date (l : ilst) : option timestamp :=
  match first_value DAY l with
  | Some (AUtf8 s) => match ts_parse (utf8_enc s) Relaxed with Ok o => o | _ => None end
  | _ => None
  end.
Definition ilst_set_date (d : timestamp) (l : ilst) : ilst := set_text DAY (ts_display d) l.

(** ** Conversions *)
Inductive companion := CIlst (l : ilst) | COther.
Notation mtag := (tag companion).
(** lines 688-693 *)
Definition ident_str (i : ident) : str :=
  match i with Fourcc f => f | Freeform mean name => $"----:" ++ mean ++ [58] ++ name end.
(** atom_info.rs 75-104 *)
Definition ident_of_str (s : str) : option ident :=
  if list_eqb (takeN 4 s) ($"----") then
    match ApeModel.split_all 58 s with _ :: mean :: name :: _ => Some (Freeform mean name) | _ => None end
  else if lenN s =? 4 then Some (Fourcc (map (fun c => c mod 256) s)) else None.
Definition ident_of_key (k : item_key) : option ident :=
  match map_key Mp4Ilst k with Some s => ident_of_str s | None => None end.
Definition key_of_ident (i : ident) : option item_key := from_key Mp4Ilst (ident_str i).

(** lines 740-746 *)
Definition pair_keys (i : ident) : option (item_key * item_key) :=
  if ident_eqb i TRKN then Some (KTrackNumber, KTrackTotal) else if ident_eqb i DISK then Some (KDiscNumber, KDiscTotal) else None.
Definition add_number (k : item_key) (n : N) (t : mtag) : mtag := if 0 <? n then snd (insert_text k (to_dec n) t) else t.
(** lines 711-764: whether the value is retained, and the tag. [key = None] is the picture mapping. *)
Definition split_value (key : option item_key) (i : ident) (v : adata) (t : mtag) : bool * mtag :=
  match v with
  | AUtf8 s | AUtf16 s => (false, match key with Some k => push_unchecked (new_item k (VText s)) t | None => t end)
  | ABool b => (false, match key with Some k => push_unchecked (new_item k (VText (if b then $"1" else $"0"))) t | None => t end)
  | APic p => (false, match key with None => push_picture p t | Some _ => t end)
  | AUnknown c d =>
      if (c =? DT_RESERVED) && (6 <=? lenN d) then
        match pair_keys i with
        | None => (true, t)
        | Some (nk, tk) => (false, add_number tk (be_dec [byte_at d 4; byte_at d 5]) (add_number nk (be_dec [byte_at d 2; byte_at d 3]) t))
        end
      else (true, t)
  | _ => (true, t)
  end.
Fixpoint split_values (key : option item_key) (i : ident) (vs : list adata) (t : mtag) : list adata * mtag :=
  match vs with
  | [] => ([], t)
  | v :: vs => let (keep, t) := split_value key i v t in
               let (rest, t) := split_values key i vs t in (if keep then v :: rest else rest, t)
  end.
(** lines 685-768 *)
Definition split_atom (a : atom) (t : mtag) : option atom * mtag :=
  let go key := let (vs, t) := split_values key (at_ident a) (at_data a) t in
                (match vs with [] => None | _ => Some (mkAtom (at_ident a) vs) end, t) in
  match key_of_ident (at_ident a) with
  | Some k => go (Some k)
  | None => if ident_eqb (at_ident a) covr_ident then go None else (Some a, t)
  end.
Fixpoint split_atoms (l : ilst) (t : mtag) : ilst * mtag :=
  match l with
  | [] => ([], t)
  | a :: l => let (o, t) := split_atom a t in
              let (rest, t) := split_atoms l t in (match o with Some a => a :: rest | None => rest end, t)
  end.
(** lines 681-777 *)
Definition split_tag (l : ilst) : ilst * mtag :=
  let (l, t) := split_atoms l (tag_new Mp4Ilst) in
  match advisory_rating l with
  | Some r => (removed RTNG l, snd (insert_text KParentalAdvisory (to_dec (rating_u8 r)) t))
  | None => (l, t)
  end.

(** lines 783-787, 811-872: the pairs of numbers *)
Record pairs := mkPairs { p_track : option N; p_tracks : option N; p_disc : option N; p_discs : option N }.
Definition uint_or (old : option N) (s : str) : option N := match parse_uint U16_MAX s with Some n => Some n | None => old end.
(** the item, already mapped to [i] *)
Definition merge_text (k : item_key) (i : ident) (s : str) (p : pairs) : pairs * list atom :=
  match k with
  | KTrackNumber => (mkPairs (uint_or (p_track p) s) (p_tracks p) (p_disc p) (p_discs p), [])
  | KTrackTotal => (mkPairs (p_track p) (uint_or (p_tracks p) s) (p_disc p) (p_discs p), [])
  | KDiscNumber => (mkPairs (p_track p) (p_tracks p) (uint_or (p_disc p) s) (p_discs p), [])
  | KDiscTotal => (mkPairs (p_track p) (p_tracks p) (p_disc p) (uint_or (p_discs p) s), [])
  | KFlagCompilation | KFlagPodcast => (p, match ApeModel.flag_item s with Some b => [mkAtom i [ABool b]] | None => [] end)
  | KParentalAdvisory =>
      (p, match parse_uint U8_MAX s with
          | Some n => match rating_of n with Some r => [mkAtom i [ASigned (Z.of_N (rating_u8 r))]] | None => [] end
          | None => []
          end)
  | _ => (p, [mkAtom i [AUtf8 s]])
  end.
Definition merge_item (x : tag_item) (p : pairs) : pairs * list atom :=
  match ident_of_key (it_key x) with
  | Some i => match it_value x with VText s => merge_text (it_key x) i s p | _ => (p, []) end
  | None => (p, [])
  end.
Fixpoint merge_items (l : list tag_item) (p : pairs) : pairs * list atom :=
  match l with
  | [] => (p, [])
  | x :: l => let (p, a) := merge_item x p in let (p, r) := merge_items l p in (p, a ++ r)
  end.
(** lines 789-805 *)
Definition int_pair (i : ident) (n t : option N) : list atom :=
  match n, t with
  | None, None => []
  | _, _ => [mkAtom i [AUnknown DT_RESERVED ([0; 0] ++ be_enc 2 (or0 n) ++ be_enc 2 (or0 t) ++ [0; 0])]]
  end.
(** lines 875-900 *)
Definition covr_atom (ps : list picture) : list atom :=
  match ps with [] => [] | _ => [mkAtom covr_ident (map (fun p => APic (as_other p)) ps)] end.
(** lines 782-905 *)
Definition merge_tag (rest : ilst) (t : mtag) : ilst :=
  let (p, atoms) := merge_items (t_items t) (mkPairs None None None None) in
  rest ++ atoms ++ covr_atom (t_pictures t) ++ int_pair TRKN (p_track p) (p_tracks p) ++ int_pair DISK (p_disc p) (p_discs p).

(** lines 908-930; [preserve] is the global option [preserve_format_specific_items] *)
Definition tag_of_ilst (preserve : bool) (l : ilst) : mtag :=
  let (rest, t) := split_tag l in
  if preserve && (0 <? lenN rest) then mkTag (t_type t) (t_pictures t) (t_items t) (Some (CIlst rest)) else t.
Definition ilst_of_tag (preserve : bool) (t : mtag) : ilst :=
  match (if preserve then t_companion t else None) with
  | Some (CIlst rest) => merge_tag rest t
  | _ => merge_tag [] t
  end.
