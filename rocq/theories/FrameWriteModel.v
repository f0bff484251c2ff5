(** Model of writing ID3v2 frames and tags: lofty/src/id3/v2/write/frame.rs, write/mod.rs (write_id3v2 for files that begin with
    the tag; WAV and AIFF are in the chunk model), the as_bytes of CHAP and CTOC, and tag.rs GenresIter. The preferred padding is
    [None] or a number (NonZero in the code). *)
From Verif Require Export FrameModel FileModel.
From Verif Require Import Id3v1Model.

(** ** tag.rs 253-321: GenresIter and parse_genre. Positions are in characters here; each cut is next to a one byte character. *)
Definition parse_genre (preserve : bool) (g : str) : str :=
  if 3 <? lenN (utf8_enc g) then g else
  match parse_uint U64_MAX g with
  | Some id => if negb preserve then match nth_error GENRES (N.to_nat id) with Some s => s | None => g end else g
  | None => if list_eqb g ($"RX") then $"Remix" else if list_eqb g ($"CR") then $"Cover" else g
  end.
Fixpoint find_char (c : N) (s : str) : option N :=
  match s with
  | [] => None
  | x :: s' => if x =? c then Some 0 else match find_char c s' with Some i => Some (i + 1) | None => None end
  end.
Fixpoint genres_iter (fuel : nat) (preserve : bool) (s : str) : list str :=
  match fuel, s with
  | O, _ | _, [] => []
  | S fuel, _ =>
      match find_char 0 s with
      | Some i => parse_genre preserve (takeN i s) :: genres_iter fuel preserve (dropN (i + 1) s)
      | None =>
          match find_char 41 s with
          | Some i =>
              if starts 40 s then
                let e := if starts 40 (dropN 1 s) then i + 1 else i in
                parse_genre preserve (takeN (e - 1) (dropN 1 s)) :: genres_iter fuel preserve (dropN (i + 1) s)
              else [parse_genre preserve s]
          | None => [parse_genre preserve s]
          end
      end
  end.
Definition genres (preserve : bool) (s : str) : list str := genres_iter (length s) preserve s.

(** ** write/frame.rs 266-293: verify_frame. *)
Definition verify_frame (f : frame) : bool :=
  let is n := list_eqb (f_name f) n in
  match f with
  | FPicture _ _ _ => is ($"APIC") | FUnsync _ _ _ _ _ => is ($"USLT") | FComment _ _ _ _ _ => is ($"COMM")
  | FUserText _ _ _ _ => is ($"TXXX") | FUserUrl _ _ _ _ => is ($"WXXX") | FBin _ _ => true | FUfid _ _ _ => is ($"UFID")
  | FPopm _ _ _ _ => is ($"POPM") | FKeyValue _ _ _ => is ($"TIPL") || is ($"TMCL")
  | FText _ _ _ => in_names (f_name f) [$"WFED"; $"GRP1"; $"MVNM"; $"MVIN"] || starts 84 (f_name f)
  | FTime _ _ _ => in_names (f_name f) TIME_IDS
  | FRva2 _ _ _ => is ($"RVA2") | FPriv _ _ _ => is ($"PRIV") | FChap _ _ _ _ _ => is ($"CHAP") | FCtoc _ _ _ _ _ _ => is ($"CTOC")
  | FUrl _ _ => starts 87 (f_name f)
  | FOwne _ _ _ _ _ | FEtco _ _ _ => false
  end.

(** lines 371-396, 331-369, 295-329 *)
Definition frame_header_bytes (w : wopts) (name : str) (len : N) (fl : frame_flags) : res ferr bytes :=
  let? n := (if w_v23 w then Ok len else as_ferr (synch32 len) ESynch) in
  Ok (utf8_enc name ++ be_enc 4 n ++ be_enc 2 (if w_v23 w then flags23 fl else flags24 fl)).
Definition encrypted_bytes (w : wopts) (name : str) (fl : frame_flags) (sym : N) (value : bytes) : res ferr bytes :=
  if sym <=? 0x80 then Err EMessage else
  match ff_length fl with
  | Some len =>
      if 0 <? len then
        let? h := frame_header_bytes w name ((lenN value + 1) mod 2 ^ 32) fl in
        let? n := (if w_v23 w then Ok len else as_ferr (synch32 len) ESynch) in
        Ok (h ++ be_enc 4 n ++ sym :: value)
      else Err ENoLength
  | None => Err ENoLength
  end.
Definition emit (w : wopts) (name : str) (fl : frame_flags) (value : bytes) : res ferr bytes :=
  match ff_encryption fl with
  | Some sym => encrypted_bytes w name fl sym value
  | None =>
      let len := lenN value mod 2 ^ 32 in
      match ff_group fl with
      | Some g =>
          if len =? U32_MAX then Panic else
          let? h := frame_header_bytes w name (len + 1) fl in Ok (h ++ g :: value)
      | None => let? h := frame_header_bytes w name len fl in Ok (h ++ value)
      end
  end.
Definition emit_frame (w : wopts) (f : frame) (value : bytes) : res ferr bytes := emit w (f_name f) (f_flags f) value.

(** Frame::as_bytes with the flag of the encoding context (frame/mod.rs 248-294), then write_frame. *)
Definition write_one (fb : frame -> res ferr bytes) (w : wopts) (root : bool) (f : frame) : res ferr (bytes * bool) :=
  let top := match f with FCtoc _ _ t _ _ _ => t | _ => false end in
  if top && root then Ok ([], root) else
  let? v := fb f in
  let? b := emit_frame w f v in
  Ok (b, root || top).

(** create_items (28-53) *)
Definition items24 (fb : frame -> res ferr bytes) (w : wopts) : bool -> list frame -> res ferr bytes :=
  fix go (root : bool) (l : list frame) {struct l} : res ferr bytes :=
    match l with
    | [] => Ok []
    | f :: l' =>
        if negb (is_valid_id (f_id f)) then go root l' else
        if negb (verify_frame f) then Err EMessage else
        let? (b, root) := write_one fb w root f in
        let? r := go root l' in
        Ok (b ++ r)
    end.

(** create_items_v3 (55-264): what becomes of a frame. *)
Inductive conv := CDrop | CSame | CNew (l : list frame) | CPairs (e : encoding) (l : list (str * str)).
Definition V4_ONLY : list str :=
  [$"ASPI"; $"EQU2"; $"RVA2"; $"SEEK"; $"SIGN"; $"TDEN"; $"TDRL"; $"TDTG"; $"TMOO"; $"TPRO"; $"TSOA"; $"TSOP"; $"TSOT"; $"TSST"].
Definition year_only (t : timestamp) : timestamp := mkTs (ts_year t) None None None None None.
Definition text23 (fl : frame_flags) (e : encoding) (id s : str) : frame := FText (mkFH (Valid id) fl) (to_id3v23 e) s.
(** lines 112-145 *)
Definition split_tdrc (fl : frame_flags) (e : encoding) (t : timestamp) : list frame :=
  text23 fl e ($"TYER") (to_dec (ts_year t))
    :: match ts_month t, ts_day t with Some m, Some d => [text23 fl e ($"TDAT") (pad 2 d ++ pad 2 m)] | _, _ => [] end
    ++ match ts_hour t, ts_minute t with Some h, Some m => [text23 fl e ($"TIME") (pad 2 h ++ pad 2 m)] | _, _ => [] end.
(** lines 174-189 *)
Fixpoint join_genres (l : list str) : str :=
  match l with
  | [] => []
  | g :: l' =>
      (if list_eqb g ($"Remix") then $"(RX)" else if list_eqb g ($"Cover") then $"(CR)"
       else if empty l' && negb (is_some (parse_uint U8_MAX g)) then g else 40 :: g ++ [41]) ++ join_genres l'
  end.
Definition conv23 (f : frame) : conv :=
  let s := f_name f in
  if in_names s [$"TDOR"; $"TDRC"] then
    match f with
    | FTime h e t =>
        match ts_verify t with
        | Ok _ => if list_eqb s ($"TDOR") then CNew [FTime (mkFH (Valid ($"TORY")) (fh_flags h)) e (year_only t)]
                  else CNew (split_tdrc (fh_flags h) e t)
        | _ => CDrop
        end
    | _ => CDrop
    end
  else if list_eqb s ($"TCON") then
    match f with FText h e v => CNew [FText h e (join_genres (genres true v))] | _ => CDrop end
  else if in_names s [$"TIPL"; $"TMCL"] then
    match f with FKeyValue _ e l => CPairs e l | _ => CDrop end
  else CSame.
(** lines 225-239 *)
Definition add_pairs (v : str) (l : list (str * str)) : str :=
  fold_left (fun v kv => v ++ (if empty v then [] else [0]) ++ fst kv ++ 0 :: snd kv) l v.
Fixpoint new_frames (w : wopts) (l : list frame) : res ferr bytes :=
  match l with
  | [] => Ok []
  | f :: l' => let? v := leaf_bytes w f in let? b := emit_frame w f v in let? r := new_frames w l' in Ok (b ++ r)
  end.
Definition items23 (fb : frame -> res ferr bytes) (w : wopts) : bool -> option (encoding * str) -> list frame -> res ferr bytes :=
  fix go (root : bool) (ipls : option (encoding * str)) (l : list frame) {struct l} : res ferr bytes :=
    match l with
    | [] => match ipls with Some (e, v) => new_frames w [FText (new_header ($"IPLS")) e v] | None => Ok [] end
    | f :: l' =>
        if negb (is_valid_id (f_id f)) then go root ipls l' else
        if in_names (f_name f) V4_ONLY then go root ipls l' else
        if negb (verify_frame f) then Err EMessage else
        match conv23 f with
        | CDrop => go root ipls l'
        | CNew fs => let? b := new_frames w fs in let? r := go root ipls l' in Ok (b ++ r)
        | CPairs e ps =>
            let '(e', v) := match ipls with Some x => x | None => (to_id3v23 e, []) end in
            go root (Some (e', add_pairs v ps)) l'
        | CSame => let? (b, root) := write_one fb w root f in let? r := go root ipls l' in Ok (b ++ r)
        end
    end.
Definition items (fb : frame -> res ferr bytes) (w : wopts) (l : list frame) : res ferr bytes :=
  if w_v23 w then items23 fb w false None l else items24 fb w false l.

(** chapter_frame.rs 118-160, table_of_contents_frame.rs 168-215 *)
Fixpoint frame_bytes (w : wopts) (f : frame) : res ferr bytes :=
  match f with
  | FChap _ id (st, et) (so, eo) l =>
      let? i := enc_text w Latin1 id true in
      let? k := items (frame_bytes w) w l in
      Ok (i ++ be_enc 4 st ++ be_enc 4 et ++ be_enc 4 so ++ be_enc 4 eo ++ k)
  | FCtoc _ id top ordered es l =>
      if 255 <? lenN es then Err ETooMuch else
      let? i := enc_text w Latin1 id true in
      let? eb := concat_res (fun e => enc_text w Latin1 e true) es in
      let? k := items (frame_bytes w) w l in
      Ok (i ++ N.lor (if ordered then 1 else 0) (if top then 2 else 0) :: lenN es :: eb ++ k)
  | _ => leaf_bytes w f
  end.
Definition write_frames (w : wopts) (l : list frame) : res ferr bytes := items (frame_bytes w) w l.

(** ** write/mod.rs 22-34, 265-286: the checksum. *)
Fixpoint crc_fold (n : nat) (acc : N) : N :=
  match n with
  | O => acc
  | S n => crc_fold n (if N.odd acc then N.lxor 0xEDB88320 (N.shiftr acc 1) else N.shiftr acc 1)
  end.
Definition crc32 (l : bytes) : N :=
  N.lxor U32_MAX (fold_left (fun c o => N.lxor (N.shiftr c 8) (crc_fold 8 (N.lxor (N.land c 255) o))) l U32_MAX).
Definition calculate_crc (l : bytes) : bytes :=
  map (fun s => N.land (N.shiftr (crc32 l) s) 0x7F) [28; 21; 14; 7; 0].

(** 194-261: the extended header; the checksum is filled in later. *)
Definition has_restr (f : tag_flags) : bool := is_some (tf_restrictions f).
Definition ext_len (f : tag_flags) : N :=
  if tf_crc f || has_restr f then 6 + (if tf_crc f then 6 else 0) + (if has_restr f then 2 else 0) else 0.
Definition ext_header (f : tag_flags) (crc : bytes) : bytes :=
  if tf_crc f || has_restr f then
    be_enc 4 (ext_len f) ++ [1; N.lor (if tf_crc f then 0x20 else 0) (if has_restr f then 0x10 else 0)]
      ++ (if tf_crc f then crc else []) ++ match tf_restrictions f with Some r => [1; restr_as_byte r] | None => [] end
  else [].
(** 95-192: create_tag. *)
Definition create_tag (w : wopts) (f : tag_flags) (frames : list frame) : res ferr bytes :=
  match frames with
  | [] => Ok []
  | _ =>
      let? fb := write_frames w frames in
      let padding := if tf_footer f then 0 else match w_padding w with Some n => n | None => 0 end in
      let len := (lenN fb + padding) mod 2 ^ 32 in
      if U32_MAX <? ext_len f + len then Panic else
      let? size := as_ferr (synch32 (ext_len f + len)) ESynch in
      let info := [if w_v23 w then 3 else 4; 0; if w_v23 w then as_id3v23_byte f else as_id3v24_byte f] ++ be_enc 4 size in
      let start := if has_restr f then 25 else 22 in
      let blank := $"ID3" ++ info ++ ext_header f [0; 0; 0; 0; 0; 0] ++ fb in
      if tf_crc f && (lenN blank <? start) then Panic else
      let tag := $"ID3" ++ info ++ ext_header f (5 :: calculate_crc (dropN start blank)) ++ fb in
      Ok (if tf_footer f then tag ++ $"3DI" ++ info else tag ++ repeat 0 (N.to_nat padding))
  end.

(** 37-93: write_id3v2 for MPEG and AAC files; [max_junk] is ParseOptions::max_junk_bytes. *)
Inductive save_error := SEncode (e : ferr) | SFind.
Definition save_id3v2 (w : wopts) (max_junk : N) (f : tag_flags) (frames : list frame) (data : bytes) : res save_error (list fop) :=
  match create_tag w f frames with
  | Err e => Err (SEncode e)
  | Panic => Panic
  | Ok tag =>
      match find_id3v2 data 0 false (Some max_junk) with
      | Err _ => Err SFind
      | Panic => Panic
      | Ok (_, _, pos) => Ok [OpTrunc 0; OpWrite 0 (tag ++ dropN pos data)]
      end
  end.
