(** Model of lofty/src/mp4/atom_info.rs, mp4/read/atom_reader.rs, mp4/read/mod.rs (without the audio properties, see [Mp4PropsModel.v]), mp4/moov.rs
    and mp4/ilst/read.rs.
    Simplified: the inner reader delivers all requested bytes at once (a cursor); sizes of allocations are not limited;
    a [DataType] is its number; one value and a list of one value are the same; the audio tracks are located but their
    content is not read; loops carry fuel, running out of it is [Panic]. *)
From Verif Require Export Base Str TextModel Mode PictureModel.
From Verif Require Id3v1Model.

Inductive mp4_error := MEof | MSeek | MIdent | MNeed | MSize | MTooMuch | MText | MMessage (n : N) | MUnknown | MMissingMoov | MBig.
Definition mord {A} (x : option A) : res mp4_error A := match x with Some a => Ok a | None => Err MEof end.
Definition msub (a b : N) : res mp4_error N := if a <? b then Panic else Ok (a - b).
Definition mtext {A} (x : res dec_error A) : res mp4_error A := match x with Ok a => Ok a | Err _ => Err MText | Panic => Panic end.

(** ** Readers: a cursor over [data], or an [AtomReader] around one (atom_reader.rs 17-42, 53-58) *)
Record bounds := mkBd { b_start : N; b_rem : N; b_len : N }.
Record reader := mkRd { r_pos : N; r_bound : option bounds }.
Definition cursor (pos : N) : reader := mkRd pos None.
Definition atom_reader (data : bytes) : reader := mkRd 0 (Some (mkBd 0 (lenN data) (lenN data))).
Definition reset_bounds (start len : N) (r : reader) : reader := mkRd (r_pos r) (Some (mkBd start len len)).
Definition consume (n : N) (o : option bounds) : option bounds :=
  match o with Some b => Some (mkBd (b_start b) (b_rem b - n) (b_len b)) | None => None end.
(** [read_exact]; atom_reader.rs 153-168: nothing can be read when nothing remains, but a read is not cut short by the bounds *)
Definition rd_inner (data : bytes) (n : N) (r : reader) : res mp4_error (bytes * reader) :=
  let? (x, _) := mord (read_exact n (dropN (r_pos r) data)) in Ok (x, mkRd (r_pos r + n) (consume n (r_bound r))).
Definition rd_exact (data : bytes) (n : N) (r : reader) : res mp4_error (bytes * reader) :=
  if n =? 0 then Ok ([], r) else
  match r_bound r with
  | Some b => if b_rem b =? 0 then Err MEof else rd_inner data n r
  | None => rd_inner data n r
  end.
Definition rd_be (data : bytes) (n : N) (r : reader) : res mp4_error (N * reader) :=
  let? (x, r) := rd_exact data n r in Ok (be_dec x, r).
(** atom_reader.rs 60-88: the methods of the reader itself do not look at what remains *)
Definition rd_be_own (data : bytes) (n : N) (r : reader) : res mp4_error (N * reader) :=
  let? (x, r) := rd_inner data n r in Ok (be_dec x, r).
(** atom_reader.rs 112-151 *)
Definition seek_cur (s : Z) (r : reader) : res mp4_error reader :=
  let p := (Z.of_N (r_pos r) + s)%Z in
  if (p <? 0)%Z then Err MSeek else
  Ok (mkRd (Z.to_N p)
       (match r_bound r with
        | Some b => Some (mkBd (b_start b) (if (s <? 0)%Z then N.min (b_rem b + Z.to_N (- s)) U64_MAX else b_rem b - Z.to_N s) (b_len b))
        | None => None
        end)).
Definition seek_start (s : N) (r : reader) : reader :=
  match r_bound r with
  | Some b => if b_len b <? s then mkRd (b_start b + b_len b) (Some (mkBd (b_start b) 0 (b_len b)))
              else mkRd (b_start b + s) (Some (mkBd (b_start b) (b_len b - (b_start b + s)) (b_len b)))
  | None => mkRd s None
  end.
Definition seek_end (data : bytes) (r : reader) : reader :=
  match r_bound r with
  | Some b => mkRd (b_start b + b_len b) (Some (mkBd (b_start b) 0 (b_len b)))
  | None => mkRd (lenN data) None
  end.

(** ** atom_info.rs 19-43, 116-122 *)
Inductive ident := Fourcc (f : bytes) | Freeform (mean name : str).
Definition ident_eqb (a b : ident) : bool :=
  match a, b with
  | Fourcc x, Fourcc y => list_eqb x y
  | Freeform m n, Freeform m' n' => list_eqb m m' && list_eqb n n'
  | _, _ => false
  end.
Definition is_fourcc (f : bytes) (i : ident) : bool := match i with Fourcc x => list_eqb x f | Freeform _ _ => false end.
Record atom_info := mkAi { a_start : N; a_len : N; a_ext : bool; a_ident : ident }.
(** 129-131 *)
Definition valid_ident_byte (b : N) : bool := ((0x20 <=? b) && (b <=? 0x7E)) || (b =? 0xA9).
(** 145-226: everything but the identifier of freeform atoms *)
Record head := mkHd { h_start : N; h_len : N; h_ext : bool; h_id : bytes }.
Definition read_head (data : bytes) (size : N) (m : pmode) (r : reader) : res mp4_error (option head * reader) :=
  let start := r_pos r in
  let? (raw, r) := rd_be data 4 r in
  let? (id, r) := rd_exact data 4 r in
  if negb (forallb valid_ident_byte id) then
    if is_strict m then Err MIdent else Ok (None, seek_end data r)
  else
    let? (len, ext, r) :=
      (if raw =? 0 then
         let r' := seek_end data r in
         let? len := msub (r_pos r') (r_pos r) in Ok (len, false, seek_start (r_pos r) r')
       else if raw =? 1 then let? (len, r) := rd_be data 8 r in Ok (len, true, r)
       else Ok (raw, false, r)) in
    if len <? 8 then Err MNeed else
    if size <? len - 8 then
      if (negb (is_strict m) && list_eqb id ($"free")) || (match m with Relaxed => true | _ => false end)
      then Ok (None, seek_end data r) else Err MSize
    else Ok (Some (mkHd start len ext id), r).
(** 283-334 *)
Definition freeform_chunk (data : bytes) (name : bytes) (size : N) (m : pmode) (r : reader) : res mp4_error (str * N * reader) :=
  let? (o, r) := read_head data size m r in
  match o with
  | None => Err (MMessage 1)
  | Some h =>
      if negb (list_eqb (h_id h) name) then Err (MMessage 2) else
      if h_len h <? 12 then Err MNeed else
      if size <? h_len h then Err MSize else
      let? r := seek_cur 4 r in
      let? (c, r) := rd_exact data (h_len h - 12) r in
      let? s := mtext (utf8_decode c) in
      Ok (s, size - h_len h, r)
  end.
(** 256-281 *)
Definition parse_freeform (data : bytes) (len : N) (m : pmode) (r : reader) : res mp4_error (ident * reader) :=
  if len <? 24 then Err MNeed else
  let? (mean, len, r) := freeform_chunk data ($"mean") len m r in
  let? (name, len, r) := freeform_chunk data ($"name") len m r in
  Ok (Freeform mean name, r).
(** 134-143, 228-245 *)
Definition read_info (data : bytes) (size : N) (m : pmode) (r : reader) : res mp4_error (option atom_info * reader) :=
  let? (o, r) := read_head data size m r in
  match o with
  | None => Ok (None, r)
  | Some h =>
      if list_eqb (h_id h) ($"----") then
        if size <? 8 then Panic else
        if size - 8 <? 8 then Err MNeed else
        let? (i, r) := parse_freeform data (h_len h - 8) m r in
        Ok (Some (mkAi (h_start h) (h_len h) (h_ext h) i), r)
      else Ok (Some (mkAi (h_start h) (h_len h) (h_ext h) (Fourcc (h_id h))), r)
  end.
(** 247-253 *)
Definition header_size (i : atom_info) : N := if a_ext i then 16 else 8.

(** atom_reader.rs 93-103 *)
Definition next (data : bytes) (m : pmode) (r : reader) : res mp4_error (option atom_info * reader) :=
  match r_bound r with
  | Some b => if b_rem b =? 0 then Ok (None, r) else if b_rem b <? 8 then Err MSize else read_info data (b_rem b) m r
  | None => Err MEof
  end.

(** ** read/mod.rs 96-117 *)
Definition skip_atom (ext : bool) (len : N) (r : reader) : res mp4_error reader :=
  if negb ext then seek_cur (Z.of_N (len mod 2 ^ 32) - 8) r
  else if U64_MAX <? r_pos r + (len - 8) then Err MTooMuch else Ok (seek_start (r_pos r + (len - 8)) r).
(** 123-153 *)
Fixpoint find_child (fuel : nat) (data : bytes) (len : N) (want : bytes) (m : pmode) (r : reader)
  : res mp4_error (option atom_info * reader) :=
  if len <=? 8 then Ok (None, r) else
  match fuel with
  | O => Panic
  | S fuel =>
      let? (o, r) := read_info data len m r in
      match o with
      | None => Ok (None, r)
      | Some i =>
          if is_fourcc want (a_ident i) then Ok (Some i, r)
          else let? r := skip_atom (a_ext i) (a_len i) r in find_child fuel data (len - a_len i) want m r
      end
  end.
(** 193-221: whether the atom is full *)
Definition meta_is_full (data : bytes) (r : reader) : res mp4_error (bool * reader) :=
  let? (_v, r) := rd_be data 4 r in
  let? (id, r) := rd_exact data 4 r in
  if existsb (list_eqb id) [$"hdlr"; $"ilst"; $"mhdr"; $"ctry"; $"lang"]
  then let? r := seek_cur (-8) r in Ok (false, r)
  else let? r := seek_cur (-4) r in Ok (true, r).
(** 18-47 *)
Definition verify_mp4 (data : bytes) (m : pmode) (r : reader) : res mp4_error (str * reader) :=
  let? (o, r) := next data m r in
  match o with
  | None => Err MUnknown
  | Some i =>
      if negb (is_fourcc ($"ftyp") (a_ident i)) then Err MUnknown else
      if a_len i <? 12 then Err MNeed else
      let? (brand, r) := rd_exact data 4 r in
      let? r := seek_cur (Z.of_N (a_len i - 12)) r in
      match utf8_decode brand with Ok s => Ok (s, r) | Err _ => Err (MMessage 3) | Panic => Panic end
  end.

(** ** The ilst. ilst/atom.rs 272-318 *)
Inductive adata := AUtf8 (s : str) | AUtf16 (s : str) | APic (p : picture) | ASigned (z : Z) | AUnsigned (n : N) | ABool (b : bool)
| AUnknown (code : N) (d : bytes).
Record atom := mkAtom { at_ident : ident; at_data : list adata }.
Record mopts := mkMo { mo_mode : pmode; mo_tags : bool; mo_props : bool; mo_cover : bool; mo_implicit : bool }.
(** data_type.rs 126-160; the numbers of the types that are told apart *)
Definition DT_RESERVED : N := 0.
Definition DT_UTF8 : N := 1.
Definition DT_UTF16 : N := 2.
Definition DT_GIF : N := 12.
Definition DT_JPEG : N := 13.
Definition DT_PNG : N := 14.
Definition DT_SIGNED : N := 21.
Definition DT_UNSIGNED : N := 22.
Definition DT_BMP : N := 27.
(** ilst/read.rs 302-327: [None] is an unknown type set *)
Definition type_indicator (data : bytes) (m : pmode) (r : reader) : res mp4_error (option N * reader) :=
  let? (set, r) := rd_be_own data 1 r in
  if negb (set =? 0) then if is_strict m then Err (MMessage 4) else Ok (None, r)
  else let? (t, r) := rd_be_own data 3 r in Ok (Some t, r).
(** 215-300 *)
Fixpoint data_loop (fuel : nat) (data : bytes) (m : pmode) (to_read pos : N) (r : reader) (acc : list (N * bytes))
  : res mp4_error (list (N * bytes) * reader) :=
  if to_read <=? pos then Ok (acc, r) else
  match fuel with
  | O => Panic
  | S fuel =>
      let? (o, r) := next data m r in
      match o with
      | None => Ok (acc, r)
      | Some i =>
          if a_len i <? 16 then if is_strict m then Err MNeed else Ok (acc, r) else
          if negb (is_fourcc ($"data") (a_ident i)) then
            if is_strict m then Err (MMessage 5) else
            let? r := skip_atom (a_ext i) (a_len i) r in data_loop fuel data m to_read (pos + a_len i) r acc
          else
            let? (t, r) := type_indicator data m r in
            match t with
            | None =>
                let rest := a_len i - 9 in
                let? r := seek_cur (Z.of_N rest) r in data_loop fuel data m to_read (pos + rest) r acc
            | Some t =>
                let? r := seek_cur 4 r in
                let? (c, r) := rd_exact data (a_len i - 16) r in
                data_loop fuel data m to_read (pos + a_len i) r (match c with [] => acc | _ => acc ++ [(t, c)] end)
            end
      end
  end.
Definition parse_data_inner (data : bytes) (m : pmode) (i : atom_info) (r : reader) : res mp4_error (list (N * bytes) * reader) :=
  let e := a_start i + a_len i in
  if e <? r_pos r then Panic else data_loop (S (length data)) data m (e - r_pos r) 0 r [].
(** 329-361; [i32] and [u32] *)
Definition to_signed (bits : N) (n : N) : Z := if n <? 2 ^ (bits - 1) then Z.of_N n else (Z.of_N n - Z.of_N (2 ^ bits))%Z.
Definition parse_uint4 (b : bytes) : res mp4_error N :=
  if (1 <=? lenN b) && (lenN b <=? 4) then Ok (be_dec b) else Err (MMessage 6).
Definition parse_int4 (b : bytes) : res mp4_error Z :=
  if lenN b =? 1 then Ok (Z.of_N (be_dec b))
  else if lenN b =? 2 then Ok (to_signed 16 (be_dec b))
  else if lenN b =? 3 then Ok (to_signed 24 (be_dec b))
  else if lenN b =? 4 then Ok (to_signed 32 (be_dec b))
  else Err (MMessage 7).
(** 438-452 *)
Definition interpret (code : N) (c : bytes) : res mp4_error adata :=
  if code =? DT_UTF8 then let? s := mtext (utf8_decode c) in Ok (AUtf8 s)
  else if code =? DT_UTF16 then let? s := mtext (utf16_decode_bytes c true) in Ok (AUtf16 s)
  else if code =? DT_SIGNED then let? z := parse_int4 c in Ok (ASigned z)
  else if code =? DT_UNSIGNED then let? n := parse_uint4 c in Ok (AUnsigned n)
  else Ok (AUnknown code c).
Fixpoint interpret_all (l : list (N * bytes)) : res mp4_error (list adata) :=
  match l with
  | [] => Ok []
  | (t, c) :: l => let? d := interpret t c in let? r := interpret_all l in Ok (d :: r)
  end.
(** 163-211. An atom without content is left out. *)
Definition parse_data (data : bytes) (m : pmode) (i : atom_info) (r : reader) (tag : list atom) : res mp4_error (list atom * reader) :=
  let? (l, r) := parse_data_inner data m i r in
  match l with
  | [] => Ok (tag, r)
  | _ => match interpret_all l with
         | Ok ds => Ok (tag ++ [mkAtom (a_ident i) ds], r)
         | Err e => if is_strict m then Err e else Ok (tag, r)
         | Panic => Panic
         end
  end.
(** 363-436 *)
Definition mime_of_type (code : N) : option (option mime_type) :=
  if code =? DT_RESERVED then Some None
  else if code =? DT_GIF then Some (Some Gif) else if code =? DT_JPEG then Some (Some Jpeg)
  else if code =? DT_PNG then Some (Some Png) else if code =? DT_BMP then Some (Some Bmp) else None.
Fixpoint covr_data (l : list (N * bytes)) : option (list adata) :=
  match l with
  | [] => Some []
  | (t, c) :: l =>
      match mime_of_type t, covr_data l with
      | Some mt, Some r => Some (APic (mkPic POther mt None c) :: r)
      | _, _ => None
      end
  end.
Definition handle_covr (data : bytes) (m : pmode) (i : atom_info) (r : reader) (tag : list atom) : res mp4_error (list atom * reader) :=
  let? (l, r) := parse_data_inner data m i r in
  match l with
  | [] => Ok (tag, r)
  | _ => match covr_data l with
         | Some ds => Ok (tag ++ [mkAtom (Fourcc ($"covr")) ds], r)
         | None => if is_strict m then Err (MMessage 8) else Ok (tag, r)
         end
  end.
(** 66-73: the genres of [gnre] values *)
Definition gnre_genre (x : N * bytes) : list adata :=
  match snd x with
  | _ :: i :: _ => if (0 <? i) && (i <=? lenN Id3v1Model.GENRES)
                   then match nth_error Id3v1Model.GENRES (N.to_nat (i - 1)) with Some g => [AUtf8 g] | None => [] end else []
  | _ => []
  end.
Definition unknown_of (x : N * bytes) : adata := AUnknown (fst x) (snd x).
Definition push_some (tag : list atom) (i : ident) (l : list adata) : list atom := match l with [] => tag | _ => tag ++ [mkAtom i l] end.
Definition FLAG_ATOMS : list bytes := [$"cpil"; $"hdvd"; $"pcst"; $"pgap"; $"shwm"].
Definition gen_ident : ident := Fourcc (0xA9 :: $"gen").
(** 36-160: [gs] are the upgraded genres *)
Fixpoint ilst_loop (fuel : nat) (data : bytes) (o : mopts) (r : reader) (tag : list atom) (gs : list adata) : res mp4_error (list atom * list adata) :=
  match fuel with
  | O => Panic
  | S fuel =>
      match next data (mo_mode o) r with
      | Panic => Panic
      | Err _ | Ok (None, _) => Ok (tag, gs)
      | Ok (Some i, r) =>
          let is f := is_fourcc f (a_ident i) in
          let m := mo_mode o in
          if is ($"free") || is ($"skip") then let? r := skip_atom (a_ext i) (a_len i) r in ilst_loop fuel data o r tag gs
          else if is ($"covr") then
            if mo_cover o then let? (tag, r) := handle_covr data m i r tag in ilst_loop fuel data o r tag gs
            else let? r := skip_atom (a_ext i) (a_len i) r in ilst_loop fuel data o r tag gs
          else if is ($"gnre") then
            let? (l, r) := parse_data_inner data m i r in
            if mo_implicit o then ilst_loop fuel data o r tag (gs ++ flat_map gnre_genre l)
            else ilst_loop fuel data o r (push_some tag (Fourcc ($"gnre")) (map unknown_of l)) gs
          else if is ($"plID") then
            let? (l, r) := parse_data_inner data m i r in
            ilst_loop fuel data o r (push_some tag (Fourcc ($"plID")) (map unknown_of (filter (fun x => lenN (snd x) =? 8) l))) gs
          else if existsb is FLAG_ATOMS then
            let? (l, r) := parse_data_inner data m i r in
            ilst_loop fuel data o r
              (match l with [] => tag | x :: _ => tag ++ [mkAtom (a_ident i) [ABool (existsb (fun b => negb (b =? 0)) (snd x))]] end) gs
          else let? (tag, r) := parse_data data m i r tag in ilst_loop fuel data o r tag gs
      end
  end.
Definition contains (i : ident) (l : list atom) : bool := existsb (fun a => ident_eqb (at_ident a) i) l.
(** 21-35, 141-160, on the content of the atom *)
Definition parse_ilst (o : mopts) (c : bytes) : res mp4_error (list atom) :=
  let? (tag, gs) := ilst_loop (S (length c)) c o (atom_reader c) [] [] in
  match gs with
  | [] => Ok tag
  | _ => if mo_implicit o then if contains gen_ident tag then Ok tag else Ok (tag ++ [mkAtom gen_ident gs]) else Ok tag
  end.

(** ** [Ilst::insert] (ilst/mod.rs 199-217, 352-370) and [Atom::merge] (atom.rs 186-244) *)
Definition covr_ident : ident := Fourcc ($"covr").
Fixpoint push_data (i : ident) (ds : list adata) (l : list atom) : option (list atom) :=
  match l with
  | [] => None
  | a :: l => if ident_eqb (at_ident a) i then Some (mkAtom (at_ident a) (at_data a ++ ds) :: l)
              else match push_data i ds l with Some r => Some (a :: r) | None => None end
  end.
Definition insert_or_push (i : ident) (ds : list adata) (l : list atom) : list atom :=
  match push_data i ds l with Some r => r | None => l ++ [mkAtom i ds] end.
Definition as_other (p : picture) : picture := mkPic POther (p_mime p) (p_desc p) (p_data p).
Definition insert_picture (p : picture) (l : list atom) : list atom := insert_or_push covr_ident [APic (as_other p)] l.
Definition pic_of (d : adata) : option picture := match d with APic p => Some p | _ => None end.
Definition is_pic (d : adata) : bool := match d with APic _ => true | _ => false end.
Definition ilst_insert (a : atom) (l : list atom) : list atom :=
  if ident_eqb (at_ident a) covr_ident && forallb is_pic (at_data a) then
    fold_left (fun l d => match d with APic p => insert_picture p l | _ => l end) (at_data a) l
  else insert_or_push (at_ident a) (at_data a) l.

(** ** moov.rs 91-154 *)
Fixpoint find_in (fuel : nat) (data : bytes) (m : pmode) (want : bytes) (limit seen : N) (r : reader) : res mp4_error (option atom_info * reader) :=
  if limit <=? seen then Ok (None, r) else
  match fuel with
  | O => Panic
  | S fuel =>
      let? (o, r) := next data m r in
      match o with
      | None => Ok (None, r)
      | Some i => if is_fourcc want (a_ident i) then Ok (Some i, r)
                  else let? r := skip_atom (a_ext i) (a_len i) r in find_in fuel data m want limit (seen + a_len i) r
      end
  end.
Definition ilst_from_udta (data : bytes) (o : mopts) (len : N) (r : reader) : res mp4_error (option (list atom) * reader) :=
  let fuel := S (length data) in
  let? (meta, r) := find_in fuel data (mo_mode o) ($"meta") len 8 r in
  match meta with
  | None => Ok (None, r)
  | Some meta =>
      let? (full, r) := meta_is_full data r in
      let? (ilst, r) := find_in fuel data (mo_mode o) ($"ilst") (a_len meta) (if full then 12 else 8) r in
      match ilst with
      | None => Ok (None, r)
      | Some i =>
          let? (c, r) := rd_exact data (a_len i - 8) r in
          let? l := parse_ilst o c in Ok (Some l, r)
      end
  end.
(** 20-39 *)
Fixpoint moov_find (fuel : nat) (data : bytes) (m : pmode) (r : reader) : res mp4_error (atom_info * reader) :=
  match fuel with
  | O => Panic
  | S fuel =>
      match next data m r with
      | Panic => Panic
      | Err _ | Ok (None, _) => Err MMissingMoov
      | Ok (Some i, r) => if is_fourcc ($"moov") (a_ident i) then Ok (i, r)
                          else let? r := skip_atom (a_ext i) (a_len i) r in moov_find fuel data m r
      end
  end.
(** 41-89: the [mdia] atoms and the tag *)
Fixpoint moov_parse (fuel : nat) (data : bytes) (o : mopts) (r : reader) (traks : list atom_info) (ilst : option (list atom))
  : res mp4_error (list atom_info * option (list atom)) :=
  match fuel with
  | O => Panic
  | S fuel =>
      match next data (mo_mode o) r with
      | Panic => Panic
      | Err _ | Ok (None, _) => Ok (traks, ilst)
      | Ok (Some i, r) =>
          if is_fourcc ($"trak") (a_ident i) && mo_props o then
            let? (mdia, r) := find_child (S (length data)) data (a_len i) ($"mdia") (mo_mode o) r in
            match mdia with
            | None => moov_parse fuel data o r traks ilst
            | Some x => let? r := skip_atom (a_ext x) (a_len x) r in moov_parse fuel data o r (traks ++ [x]) ilst
            end
          else if is_fourcc ($"udta") (a_ident i) && mo_tags o then
            let? (t, r) := ilst_from_udta data o (a_len i - 8) r in
            moov_parse fuel data o r traks
              (match t, ilst with
               | None, _ => ilst
               | Some t, None => Some t
               | Some t, Some old => Some (fold_left (fun l a => ilst_insert a l) t old)
               end)
          else let? r := skip_atom (a_ext i) (a_len i) r in moov_parse fuel data o r traks ilst
      end
  end.
(** read/mod.rs 49-84: major brand, tracks, tag *)
Definition mp4_read (data : bytes) (o : mopts) : res mp4_error (str * list atom_info * option (list atom)) :=
  let? (brand, r) := verify_mp4 data (mo_mode o) (atom_reader data) in
  let? (moov, r) := moov_find (S (length data)) data (mo_mode o) r in
  let? (traks, ilst) := moov_parse (S (length data)) data o (reset_bounds (a_start moov + 8) (a_len moov - 8) r) [] None in
  Ok (brand, traks, ilst).
