(** Model of lofty/src/ape/tag (header.rs, item.rs, read.rs, write.rs, mod.rs), of lofty/src/ape/read.rs without the audio
    properties, and of lofty/src/id3/v2/util/pairs.rs. *)
From Verif Require Export TagModel Id3v2HeaderModel FileModel TrimModel.
Notation filter_map := TagModel.filter_map.

(** ** item.rs *)
Record ape_item := mkApe { ai_ro : bool; ai_key : str; ai_value : item_value }.
(** constants.rs line 1 *)
Definition INVALID_KEYS : list str := [$"ID3"; $"TAG"; $"OGGS"; $"MP+"].
(** lines 34-52: [ApeItem::new]; the length is that of the UTF-8 form. *)
Inductive ape_error := AIo | ASize | AText | AIllegalKey | AKeyLength | AKeyChars | AItemType | ATooMuch | AFake | AFind | ANotApe.
Definition ape_item_new (key : str) (v : item_value) : res ape_error ape_item :=
  if existsb (fun k => eq_ignore_case k key) INVALID_KEYS then Err AIllegalKey
  else let n := lenN (utf8_enc key) in
  if negb ((2 <=? n) && (n <=? 255)) then Err AKeyLength
  else if existsb (fun c => negb ((0x20 <=? c) && (c <=? 0x7E))) key then Err AKeyChars
  else Ok (mkApe false key v).
(** [str::split] *)
Fixpoint split_all (sep : N) (s : str) : list str :=
  match s with
  | [] => [[]]
  | c :: s' => if c =? sep then [] :: split_all sep s'
               else match split_all sep s' with w :: ws => (c :: w) :: ws | [] => [[c]] end
  end.
(** lines 83-88 *)
Definition text_values (i : ape_item) : option (list str) :=
  match ai_value i with VText s | VLocator s => Some (split_all 0 s) | VBinary _ => None end.
(** lines 91-97 *)
Definition ape_text (key : str) (s : str) : ape_item := mkApe false key (VText s).

(** ** tag/mod.rs *)
Record ape_tag := mkApeTag { at_ro : bool; at_items : list ape_item }.
Definition ape_default : ape_tag := mkApeTag false [].
Definition key_is (key : str) (i : ape_item) : bool := eq_ignore_case (ai_key i) key.
(** lines 133-143, 262-264, 184-187 *)
Definition ape_get (t : ape_tag) (key : str) : option ape_item := find (key_is key) (at_items t).
Definition ape_remove (key : str) (t : ape_tag) : ape_tag := mkApeTag (at_ro t) (filter (fun i => negb (key_is key i)) (at_items t)).
Definition ape_insert (i : ape_item) (t : ape_tag) : ape_tag :=
  let t := ape_remove (ai_key i) t in mkApeTag (at_ro t) (at_items t ++ [i]).
(** lines 230-246: the first item with the key is changed in place. *)
Definition ape_combine (old new : ape_item) : ape_item :=
  match ai_value old, ai_value new with
  | VText a, VText b => mkApe (ai_ro old) (ai_key old) (VText (a ++ [0] ++ b))
  | VLocator a, VLocator b => mkApe (ai_ro old) (ai_key old) (VLocator (a ++ [0] ++ b))
  | _, _ => new
  end.
Fixpoint push_into (new : ape_item) (l : list ape_item) : list ape_item :=
  match l with
  | [] => [new]
  | i :: l' => if key_is (ai_key new) i then ape_combine i new :: l' else i :: push_into new l'
  end.
Definition ape_push (i : ape_item) (t : ape_tag) : ape_tag := mkApeTag (at_ro t) (push_into i (at_items t)).

(** pairs.rs 35-47, on the texts of the numbers. *)
Definition format_number_pair (number total : option str) : option str :=
  match number, total with
  | Some n, None => Some n
  | None, Some t => Some ($"0/" ++ t)
  | Some n, Some t => Some (n ++ [47] ++ t)
  | None, None => None
  end.
(** pairs.rs 50-70: the number handed to the setter. *)
Definition item_number (i : tag_item) : option N :=
  let t := trim (match value_text (it_value i) with Some s => s | None => [] end) in
  match t with [] => None | _ => parse_uint U32_MAX t end.

(** lines 303-314: [split('/').flat_map(parse)] skips what is not a number. *)
Definition split_num_pair (t : ape_tag) (key : str) : option N * option N :=
  match ape_get t key with
  | Some i => match ai_value i with
              | VText s => let l := filter_map (parse_uint U32_MAX) (split_all 47 s) in (nth_error l 0, nth_error l 1)
              | _ => (None, None)
              end
  | None => (None, None)
  end.
(** lines 316-322 *)
Definition insert_number_pair (key : str) (number total : option N) (t : ape_tag) : ape_tag :=
  match format_number_pair (option_map to_dec number) (option_map to_dec total) with
  | Some v => ape_insert (ape_text key v) t
  | None => t
  end.
Definition TRACK := $"Track".
Definition DISC := $"Disc".
(** lines 352-408, for the key of tracks or discs *)
Definition pair_number (key : str) (t : ape_tag) := fst (split_num_pair t key).
Definition pair_total (key : str) (t : ape_tag) := snd (split_num_pair t key).
Definition set_pair_number (key : str) (n : N) (t : ape_tag) : ape_tag := insert_number_pair key (Some n) (pair_total key t) t.
Definition set_pair_total (key : str) (n : N) (t : ape_tag) : ape_tag := insert_number_pair key (pair_number key t) (Some n) t.
Definition remove_pair_total (key : str) (t : ape_tag) : ape_tag :=
  let n := pair_number key t in
  let t := ape_remove key t in
  match n with Some n => ape_insert (ape_text key (to_dec n)) t | None => t end.
(** lines 26-58: text accessors *)
Definition ape_get_text (key : str) (t : ape_tag) : option str :=
  match ape_get t key with Some i => value_text (ai_value i) | None => None end.
Definition ape_set_text (key : str) (s : str) (t : ape_tag) : ape_tag := ape_insert (ape_text key s) t.

(** util/mod.rs 6-12 *)
Definition flag_item (s : str) : option bool :=
  if list_eqb s ($"1") || list_eqb s ($"true") then Some true
  else if list_eqb s ($"0") || list_eqb s ($"false") then Some false else None.
(** lines 266-301 *)
Definition ape_insert_item (t : ape_tag) (i : tag_item) : ape_tag :=
  let set (f : N -> ape_tag -> ape_tag) := match item_number i with Some n => f n t | None => t end in
  match it_key i with
  | KTrackNumber => set (set_pair_number TRACK)
  | KTrackTotal => set (set_pair_total TRACK)
  | KDiscNumber => set (set_pair_number DISC)
  | KDiscTotal => set (set_pair_total DISC)
  | KFlagCompilation =>
      match value_text (it_value i) with
      | None => t
      | Some s => match flag_item s with
                  | None => t
                  | Some b => ape_insert (ape_text ($"Compilation") (if b then $"1" else $"0")) t
                  end
      end
  | k => match map_key Ape k with
         | None => t
         | Some key => match ape_item_new key (it_value i) with Ok a => ape_push a t | _ => t end
         end
  end.

(** lines 532-548: [splitn(2, '/')] always has a first part. *)
Definition split_pair (content : str) (current total : item_key) : list tag_item :=
  match split_once 47 content with
  | Some (a, b) => [new_item current (VText a); new_item total (VText b)]
  | None => [new_item current (VText content)]
  end.
(** lines 552-611: what one item becomes; [None] = kept in the remainder. *)
Definition split_ape_item (i : ape_item) : option (list tag_item) :=
  match from_key Ape (ai_key i) with
  | None => None
  | Some k => Some (
      match k, ai_value i with
      | (KTrackNumber | KTrackTotal), VText s => split_pair s KTrackNumber KTrackTotal
      | (KDiscNumber | KDiscTotal), VText s => split_pair s KDiscNumber KDiscTotal
      | (KMovementNumber | KMovementTotal), VText s => split_pair s KMovementNumber KMovementTotal
      | k, VText s => if existsb (N.eqb 0) s then map (fun v => new_item k (VText v)) (split_all 0 s) else [new_item k (VText s)]
      | k, v => [new_item k v]
      end)
  end.
Fixpoint split_ape_items (l : list ape_item) : list ape_item * list tag_item :=
  match l with
  | [] => ([], [])
  | i :: l' => let (r, ts) := split_ape_items l' in
      match split_ape_item i with None => (i :: r, ts) | Some x => (r, x ++ ts) end
  end.
Definition ape_split {C} (t : ape_tag) : ape_tag * tag C :=
  let (r, ts) := split_ape_items (at_items t) in (mkApeTag (at_ro t) r, mkTag Ape [] ts None).
(** lines 622-640 *)
Definition ape_insert_picture (t : ape_tag) (p : picture) : ape_tag :=
  match pic_as_ape_key (p_type p) with
  | Some key => match ape_item_new key (VBinary (as_ape_bytes p)) with Ok i => ape_insert i t | _ => t end
  | None => t
  end.
Definition ape_merge {C} (rem : ape_tag) (t : tag C) : ape_tag :=
  fold_left ape_insert_picture (t_pictures t) (fold_left ape_insert_item (t_items t) rem).
(** lines 643-653 *)
Definition tag_of_ape {C} (t : ape_tag) : tag C := snd (ape_split t).
Definition ape_of_tag {C} (t : tag C) : ape_tag := ape_merge ape_default t.
(** lines 685-716, [tagitems_into_ape]: what is written for a Tag saved directly. *)
Definition is_pair_key (k : item_key) : bool := existsb (ik_eqb k) [KTrackNumber; KTrackTotal; KDiscNumber; KDiscTotal].
Definition opt_list {A} (o : option A) : list A := match o with Some x => [x] | None => [] end.
Definition ape_ref_of_tag {C} (t : tag C) : list ape_item :=
  filter_map (fun i => match map_key Ape (it_key i) with Some key => Some (mkApe false key (it_value i)) | None => None end)
    (filter (fun i => negb (is_pair_key (it_key i))) (t_items t)) ++
  opt_list (option_map (ape_text TRACK) (format_number_pair (get_string t KTrackNumber) (get_string t KTrackTotal))) ++
  opt_list (option_map (ape_text DISC) (format_number_pair (get_string t KDiscNumber) (get_string t KDiscTotal))).

(** ** Reading. A reader is its position and the bytes after it; a seek past the end leaves none. *)
Notation rd := (N * bytes)%type.
Definition or_io {A} (o : option A) : res ape_error A := match o with Some x => Ok x | None => Err AIo end.
Definition rd_exact (n : N) (r : rd) : res ape_error (bytes * rd) :=
  let? (b, rest) := or_io (read_exact n (snd r)) in Ok (b, (fst r + n, rest)).
Definition rd_le4 (r : rd) : res ape_error (N * rd) :=
  let? (v, rest) := or_io (read_le 4 (snd r)) in Ok (v, (fst r + 4, rest)).
Definition rd_skip (n : N) (r : rd) : rd := (fst r + n, dropN n (snd r)).
Definition rd_at (data : bytes) (pos : N) : rd := (pos, dropN pos data).
(** read.rs 86-93: the bytes before the next NUL, which is consumed. *)
Fixpoint key_bytes (r : bytes) : option (bytes * bytes) :=
  match r with
  | [] => None
  | c :: r' => if c =? 0 then Some ([], r') else match key_bytes r' with Some (k, r'') => Some (c :: k, r'') | None => None end
  end.
Definition rd_key (r : rd) : res ape_error (bytes * rd) :=
  let? (k, rest) := or_io (key_bytes (snd r)) in Ok (k, (fst r + lenN k + 1, rest)).
Definition dec_text (b : bytes) : res ape_error str := match utf8_decode b with Ok s => Ok s | _ => Err AText end.
(** read.rs 28-68 *)
Definition parse_item (key : str) (flags size : N) (r : rd) : res ape_error (ape_item * rd) :=
  let ro := N.land flags 1 =? 1 in
  let ty := N.land (N.shiftr flags 1) 3 in
  let? (v, r) := rd_exact size r in
  let? pv := (if ty =? 0 then let? s := dec_text v in Ok (VText s)
              else if ty =? 1 then Ok (VBinary v)
              else if ty =? 2 then let? s := dec_text v in Ok (VLocator s)
              else Err AItemType) in
  let? i := ape_item_new key pv in
  Ok (if ro then mkApe true (ai_key i) (ai_value i) else i, r).
(** picture/mod.rs 18-40 *)
Definition APE_PICTURE_TYPES : list str := filter_map pic_as_ape_key named_types.
(** read.rs 71-108. Each round consumes at least 9 bytes or fails, so [fuel] (more than the length of the input) does not run out. *)
Fixpoint read_items (fuel : nat) (count remaining : N) (cover : bool) (t : ape_tag) (r : rd) : res ape_error (ape_tag * rd) :=
  match fuel with
  | O => Err AIo
  | S fuel =>
      if count =? 0 then Ok (t, r)
      else if remaining <? 11 then Ok (t, r)
      else
        let? (size, r) := rd_le4 r in
        if remaining <? size then Err ASize else
        let? (flags, r) := rd_le4 r in
        let? (kb, r) := rd_key r in
        let? key := dec_text kb in
        if existsb (list_eqb key) APE_PICTURE_TYPES && negb cover then
          read_items fuel (count - 1) (remaining - 4) cover t (rd_skip size r)
        else
          let? (i, r) := parse_item key flags size r in
          read_items fuel (count - 1) (remaining - 4) cover (ape_insert i t) r
  end.
Definition read_with_header (size count : N) (cover : bool) (r : rd) : res ape_error (ape_tag * rd) :=
  let? (t, r) := read_items (S (length (snd r))) count size cover ape_default r in
  Ok (t, rd_skip 32 r).
(** header.rs 16-52: size, item count and reader; the backwards seek needs the whole stream. *)
Definition read_ape_header (data : bytes) (footer : bool) (r : rd) : res ape_error (N * N * rd) :=
  let? (version, r) := rd_le4 r in
  let? (size, r) := rd_le4 r in
  if size <? 32 then Err ASize else
  let? (count, r) := rd_le4 r in
  let? r := (if footer then match seek_back (fst r) (size - 12) with Some p => Ok (rd_at data p) | None => Err AIo end
             else Ok (rd_skip 12 r)) in
  let size := if version =? 2000 then N.min U32_MAX (size + 32) else size in
  if lenN data <? size then Err ASize else Ok (size, count, r).
Definition PREAMBLE : bytes := $"APETAGEX".
(** read.rs 113-132: tag, header (size and count), reader *)
Definition read_ape_tag (data : bytes) (footer cover tags : bool) (r : rd) : res ape_error (option ape_tag * option (N * N) * rd) :=
  let? (p, r) := rd_exact 8 r in
  if list_eqb p PREAMBLE then
    let? (size, count, r) := read_ape_header data footer r in
    if tags then
      let? (t, r) := read_with_header size count cover r in
      Ok (Some t, Some (size, count), r)
    else Ok (None, Some (size, count), r)
  else Ok (None, None, r).

(** ** Writing: write.rs *)
Definition item_flags (i : ape_item) : N :=
  (match ai_value i with VBinary _ => 2 | VText _ => 0 | VLocator _ => 4 end) + (if ai_ro i then 1 else 0).
Definition value_bytes (v : item_value) : bytes := match v with VBinary b => b | VText s | VLocator s => utf8_enc s end.
Definition item_bytes (i : ape_item) : bytes :=
  let v := value_bytes (ai_value i) in
  le_enc 4 (lenN v mod 2 ^ 32) ++ le_enc 4 (item_flags i) ++ utf8_enc (ai_key i) ++ [0] ++ v.
Definition frame_bytes (size count flags : N) : bytes :=
  PREAMBLE ++ le_enc 4 2000 ++ le_enc 4 size ++ le_enc 4 count ++ le_enc 4 flags ++ le_enc 8 0.
(** lines 181-293. The read-only items of an existing tag are not used (lines 199-203). *)
Definition create_ape_tag (ro : bool) (items : list ape_item) : res ape_error bytes :=
  match items with
  | [] => Ok []
  | _ =>
      let body := flat_map item_bytes items in
      if U32_MAX <? lenN items then Panic else
      if U32_MAX <? lenN body + 32 then Err ATooMuch else
      let r := if ro then 1 else 0 in
      Ok (frame_bytes (lenN body + 32) (lenN items) (0xE0000000 + r) ++ body ++
          frame_bytes (lenN body + 32) (lenN items) (0xC0000000 + r))
  end.
Definition ape_dump (t : ape_tag) : res ape_error bytes := create_ape_tag (at_ro t) (at_items t).

(** lines 59-148. Result: header range, footer range, write position. The read-only items found are not used afterwards. *)
Definition find_existing (data : bytes) (cover tags : bool) : res ape_error (option (N * N) * option (N * N) * N) :=
  match find_id3v2 data 0 false None with
  | Ok (_, _, p) =>
      let? (_, r) := rd_exact 8 (rd_at data p) in
      let start := fst r in
      let? (t, h, r) := read_ape_tag data false cover tags r in
      let header := match t, h with Some _, Some (size, _) => Some (start, start + size) | _, _ => None end in
      (* [seek(Current(-8))] cannot fail after reading 8 bytes; the position is not used: [find_id3v1] seeks from the end *)
      let (p1, _) := find_id3v1 data in
      match find_lyrics3v2 data p1 with
      | Ok (_, _, pos) =>
          match seek_back pos 32 with
          | None => Err AIo
          | Some s =>
              let? (t, h, _) := read_ape_tag data true cover tags (rd_at data s) in
              match t, h with
              | Some _, Some (size, _) =>
                  if pos <? size then Err ASize else Ok (header, Some (pos - size, pos), pos)
              | _, _ => Ok (header, None, pos)
              end
          end
      | Err _ => Err AFind
      | Panic => Panic
      end
  | Err _ => Err AFind
  | Panic => Panic
  end.
(** [Vec::splice] and [Vec::drain]: panic when the range is not inside the vector. *)
Definition splice (a b : N) (new l : bytes) : res ape_error bytes :=
  if (b <? a) || (lenN l <? b) then Panic else Ok (takeN a l ++ new ++ dropN b l).
(** lines 22-52, 150-179: the file operations. *)
Definition ape_write (data : bytes) (cover tags : bool) (ro : bool) (items : list ape_item) : res ape_error (list fop) :=
  let? (header, footer, pos) := find_existing data cover tags in
  let? new := create_ape_tag ro items in
  let? out := (match footer with Some (a, b) => splice a b new data | None => splice pos pos new data end) in
  let? out := (match header with Some (a, b) => splice a b [] out | None => Ok out end) in
  Ok [OpTrunc 0; OpWrite 0 out].

(** ** ape/read.rs 17-170, without the audio properties. [id3v2_ok] says whether the content of an ID3v2 tag can be parsed.
    Result: ID3v1 tag, APE tag, [mac_start], [stream_len] and [file_length] given to the properties. The loop of lines 64-106
    never reads the four header bytes again. *)
Definition sub_or {A} (a b : N) (k : N -> res ape_error A) : res ape_error A := if a <? b then Err ASize else k (a - b).
Record ape_file := mkApeFile { af_v1 : option id3v1; af_ape : option ape_tag; af_mac : N; af_stream_len : N; af_file_len : N }.
(** The rounds of the loop for "APET": [header] stays "APET", so the loop only ends with an error. Each round consumes at least
    28 bytes, [fuel] does not run out. *)
Fixpoint apet_rounds (fuel : nat) (data : bytes) (cover tags : bool) (r : rd) (stream_len : N) : ape_error + unit :=
  match fuel with
  | O => inl AIo
  | S fuel =>
      match rd_exact 4 r with
      | Ok (rest, r) =>
          if negb (list_eqb rest ($"AGEX")) then inl AFake else
          match read_ape_header data false r with
          | Ok (size, count, r) =>
              if stream_len <? size then inl ASize else
              if tags then match read_with_header size count cover r with
                           | Ok (_, r) => apet_rounds fuel data cover tags r (stream_len - size)
                           | Err e => inl e
                           | Panic => inr tt
                           end
              else apet_rounds fuel data cover tags r (stream_len - size)
          | Err e => inl e
          | Panic => inr tt
          end
      | Err e => inl e
      | Panic => inr tt
      end
  end.
Definition read_mac (data : bytes) (cover tags : bool) (r : rd) (stream_len : N) : res ape_error (N * N) :=
  let? (h, r) := rd_exact 4 r in
  if list_eqb h ($"MAC ") then Ok (fst r, stream_len)
  else if list_eqb h ($"APET") then match apet_rounds (S (length data)) data cover tags r stream_len with inl e => Err e | inr _ => Panic end
  else Err ANotApe.
Definition ape_read_from (id3v2_ok : id3v2_header -> bytes -> bool) (data : bytes) (cover tags strict : bool) : res ape_error ape_file :=
  match find_id3v2 data 0 tags None with
  | Ok (h, content, p) =>
      let? stream_len := (match h with
        | None => Ok (lenN data)
        | Some h => match full_tag_size h with
                    | Ok n => sub_or (lenN data) n Ok
                    | _ => Panic
                    end
        end) in
      let? _u := (match h, content with Some h, Some c => if id3v2_ok h c then Ok 0 else Err AFind | _, _ => Ok 0 end) in
      let? (mac, stream_len) := read_mac data cover tags (rd_at data p) stream_len in
      let (p1, found) := find_id3v1 data in
      let? v1 := (if found && tags then match v1_parse (dropN p1 data) strict with Ok v => Ok (Some v) | Err _ => Err AFind | Panic => Panic end else Ok None) in
      let? stream_len := (if found then sub_or stream_len 128 Ok else Ok stream_len) in
      match find_lyrics3v2 data p1 with
      | Ok (_, lsize, pos) =>
          sub_or stream_len lsize (fun stream_len =>
            match seek_back pos 32 with
            | None => Err AIo
            | Some s =>
                let? (t, h, r) := read_ape_tag data true cover tags (rd_at data s) in
                match h with
                | Some (size, _) => if stream_len <? size then Panic else Ok (mkApeFile v1 t mac (stream_len - size) (fst r))
                | None => Ok (mkApeFile v1 t mac stream_len (fst r))
                end
            end)
      | Err _ => Err AFind
      | Panic => Panic
      end
  | Err _ => Err AFind
  | Panic => Panic
  end.
