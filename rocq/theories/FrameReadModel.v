(** Model of reading ID3v2 frames and tags: lofty/src/id3/v2/frame/header/parse.rs, frame/read.rs and read.rs. Decompression
    (flate2) is an argument of the model: a function from the whole content to the whole decompressed content or an error. *)
From Verif Require Export FrameModel.

(** config/parse_options.rs: the options that matter here. *)
Record fopts := mkFO { fo_mode : pmode; fo_cover : bool; fo_implicit : bool }.

Inductive header_res :=
| HEnd                                                     (* Ok(None) *)
| HBad (size : N) (rest : bytes)                           (* Err, after the size was set *)
| HOk (id : frame_id) (fl : frame_flags) (size : N) (rest : bytes).

(** header/parse.rs 12-44 *)
Definition parse_v2_header (r : bytes) : header_res :=
  match read_exact 6 r with
  | Some (h, r) =>
      if nth 0 h 0 =? 0 then HEnd else
      let size := be_dec (dropN 3 h) in
      match utf8_dec (takeN 3 h) with
      | Some s =>
          match frame_id_new (upgraded (upgrade_v2 s) s) with
          | Some id => HOk id ff_default size r
          | None => HBad size r
          end
      | None => HBad size r
      end
  | None => HEnd
  end.
(** header/parse.rs 46-115 *)
Definition parse_header (synchsafe implicit : bool) (r : bytes) : header_res :=
  match read_exact 10 r with
  | Some (h, r) =>
      if nth 0 h 0 =? 0 then HEnd else
      let raw := be_dec (takeN 4 (dropN 4 h)) in
      let size := if synchsafe then unsynch32 raw else raw in
      let bad_v2 := (nth 3 h 0 =? 0) && negb synchsafe in
      match utf8_decode (takeN (if bad_v2 then 3 else 4) h) with
      | Ok s =>
          let s := if bad_v2 then upgraded (upgrade_v2 s) s
                   else if negb synchsafe && implicit then upgraded (upgrade_v3 s) s else s in
          match frame_id_new s with
          | Some id =>
              let fl := be_dec (dropN 8 h) in
              HOk id (if synchsafe then parse_flags24 fl else parse_flags23 fl) size r
          | None => HBad size r
          end
      | _ => HBad size r
      end
  | None => HEnd
  end.

(** What UnsynchronizedStream has taken from its reader once [k] bytes were read from it (whole buffers of 8192 bytes). *)
Fixpoint raw_used (k : nat) (ff : bool) (l : bytes) : N :=
  match k, l with
  | O, _ | _, [] => 0
  | S k', b :: l' =>
      if ff && (b =? 0) then
        match l' with [] => 1 | b' :: l'' => 2 + raw_used k' (b' =? 255) l'' end
      else 1 + raw_used k' (b =? 255) l'
  end.
Definition unsync_rest (raw : bytes) (more : bytes) : bytes :=
  match more with
  | [] => []
  | _ => let p := raw_used (length (resynchronise raw) - length more) false raw in dropN ((p + 8191) / 8192 * 8192) raw
  end.

Inductive pframe := PNext (f : frame) | PSkip | PEnd.
Definition set_enc (f : frame_flags) (v : N) : frame_flags :=
  mkFF (ff_tag_alter f) (ff_file_alter f) (ff_read_only f) (ff_group f) (ff_compression f) (Some v) (ff_unsync f) (ff_length f).
Definition set_group (f : frame_flags) (v : N) : frame_flags :=
  mkFF (ff_tag_alter f) (ff_file_alter f) (ff_read_only f) (Some v) (ff_compression f) (ff_encryption f) (ff_unsync f) (ff_length f).
Definition set_length (f : frame_flags) (v : N) : frame_flags :=
  mkFF (ff_tag_alter f) (ff_file_alter f) (ff_read_only f) (ff_group f) (ff_compression f) (ff_encryption f) (ff_unsync f) (Some v).
Definition set_unsync (f : frame_flags) : frame_flags :=
  mkFF (ff_tag_alter f) (ff_file_alter f) (ff_read_only f) (ff_group f) (ff_compression f) (ff_encryption f) true (ff_length f).
Definition is_v4 (v : id3v2_version) : bool := match v with V4 => true | _ => false end.
Definition is_v3 (v : id3v2_version) : bool := match v with V3 => true | _ => false end.

(** read.rs 83-139: the bytes that the flags put before the content. *)
Definition read_extras (fl : frame_flags) (size : N) (r : bytes) : res ferr (frame_flags * N * bytes) :=
  let? (fl, size, r) :=
    (match ff_encryption fl with
     | Some _ => if size <? 1 then Err EUndersized else
                 let? (b, r) := from_opt (read_u8 r) EEof in Ok (set_enc fl b, size - 1, r)
     | None => Ok (fl, size, r)
     end) in
  let? (fl, size, r) :=
    (match ff_group fl with
     | Some _ => if size <? 1 then Err EUndersized else
                 let? (b, r) := from_opt (read_u8 r) EEof in Ok (set_group fl b, size - 1, r)
     | None => Ok (fl, size, r)
     end) in
  if is_some (ff_length fl) || ff_compression fl then
    if size <? 4 then Err EUndersized else
    let? (v, r) := from_opt (read_be 4 r) EEof in
    Ok (set_length fl (unsynch32 v), size - 4, r)
  else Ok (fl, size, r).

(** read.rs 245-267; [content]: what the reader would give. The reader given is dropped afterwards. *)
Definition encrypted_frame (id : frame_id) (fl : frame_flags) (size : N) (content : bytes) : res ferr pframe :=
  match ff_length fl with
  | None => Err ENoLength
  | Some _ => let? (b, _) := from_opt (read_exact size content) EEof in Ok (PNext (FBin (mkFH id fl) b))
  end.
(** read.rs 269-287: what is left of the content is dropped when the parser gives nothing. *)
Definition content_frame (p : parsed) : res ferr (pframe * bytes) :=
  let? (o, more) := p in
  match o with Some f => Ok (PNext f, more) | None => Ok (PSkip, []) end.

(** read.rs 24-230: ParsedFrame::read; [kids]: the reader of the frames inside CHAP and CTOC. *)
Definition read_frame (inflate : bytes -> option bytes) (kids : kids_reader) (v : id3v2_version) (tag_unsync : bool) (o : fopts)
    (r : bytes) : res ferr (pframe * bytes) :=
  match (if is_v2 v then parse_v2_header r else parse_header (is_v4 v) (fo_implicit o) r) with
  | HEnd => Ok (PEnd, [])
  | HBad size r => if is_strict (fo_mode o) then Err EMessage else Ok (PSkip, dropN size r)
  | HOk id fl size r =>
      if negb (fo_cover o) && id_eqb id (Valid ($"APIC")) then Ok (PSkip, dropN size r) else
      let fl := if tag_unsync && is_v4 v then set_unsync fl else fl in
      if size =? 0 then (if is_strict (fo_mode o) then Err EUndersized else Ok (PSkip, r)) else
      let? (fl, size, r) := read_extras fl size r in
      if size =? 0 then Err EUndersized else
      let raw := takeN size r in
      let after := dropN size r in
      let plain := if ff_unsync fl then resynchronise raw else raw in
      let parse c := content_frame (parse_content kids id fl v (fo_mode o) c) in
      if ff_compression fl then
        let? c := from_opt (inflate plain) EEof in
        if is_some (ff_encryption fl) then let? p := encrypted_frame id fl size c in Ok (p, after)
        else let? (p, _) := parse c in Ok (p, after)
      else if is_some (ff_encryption fl) then let? p := encrypted_frame id fl size plain in Ok (p, after)
      else
        let? (p, more) := parse plain in
        Ok (p, (if ff_unsync fl then unsync_rest raw more else more) ++ after)
  end.

(** read.rs (of the tag) 161-187: what happens to a frame that was read. *)
Definition add_read (f : frame) (l : list frame) : list frame :=
  match fl_insert f l with
  | (l', Some g) =>
      match f_is_empty f, f_is_empty g with
      | Some true, Some false => fst (fl_insert g l')
      | _, _ => l'
      end
  | (l', None) => l'
  end.
(** lines 153-194: read_all_frames_into_list, with the frames inside frames read the same way (default tag flags). [fuel] bounds both
    the number of frames and the depth; running out is [Panic]. *)
Fixpoint read_all (inflate : bytes -> option bytes) (fuel : nat) (v : id3v2_version) (tag_unsync : bool) (o : fopts)
    (acc : list frame) (r : bytes) : res ferr (list frame * bytes) :=
  match fuel with
  | O => Panic
  | S fuel =>
      let? (p, r) := read_frame inflate (read_all inflate fuel v false o []) v tag_unsync o r in
      match p with
      | PEnd => Ok (acc, r)
      | PSkip => read_all inflate fuel v tag_unsync o acc r
      | PNext f => read_all inflate fuel v tag_unsync o (add_read f acc) r
      end
  end.

(** ** read.rs 56-134: construct_tdrc_from_v3. *)
Definition TDRC := Valid ($"TDRC").
Definition TDAT := Valid ($"TDAT").
Definition TIME := Valid ($"TIME").
Definition two_u8 (s : str) : option (N * N) :=
  if (lenN s =? 4) && forallb (fun c => c <? 128) s then
    match parse_uint U8_MAX (takeN 2 s), parse_uint U8_MAX (dropN 2 s) with
    | Some a, Some b => Some (a, b)
    | _, _ => None
    end
  else None.
Definition text_pair (id : frame_id) (l : list frame) : option (N * N) :=
  match fl_get_text id l with Some s => two_u8 s | None => None end.
Definition construct_tdrc (l : list frame) : list frame :=
  match hd_error (fl_removed TDRC l) with
  | None => l
  | Some (FTime _ e t) =>
      let l := fl_remove TDRC l in
      match ts_month t with
      | Some _ => l
      | None =>
          let y := mkTs (ts_year t) None None None None None in
          match text_pair TDAT l with
          | None => fst (fl_insert (FTime (mkFH TDRC ff_default) e y) l)
          | Some (day, month) =>
              match text_pair TIME l with
              | None =>
                  fl_remove TDAT
                    (fst (fl_insert (FTime (mkFH TDRC ff_default) e (mkTs (ts_year t) (Some month) (Some day) None None None)) l))
              | Some (hour, minute) =>
                  fl_remove TIME (fl_remove TDAT
                    (fst (fl_insert (FTime (mkFH TDRC ff_default) e
                                       (mkTs (ts_year t) (Some month) (Some day) (Some hour) (Some minute) None)) l)))
              end
          end
      end
  | Some f => fst (fl_insert f (fl_remove TDRC l))
  end.

(** ** read.rs 13-54: parse_id3v2; tag.rs: the tag's flags and frames. *)
Record id3v2_tag := mkT { t_version : id3v2_version; t_flags : tag_flags; t_frames : list frame }.
Definition parse_id3v2 (inflate : bytes -> option bytes) (h : id3v2_header) (o : fopts) (r : bytes) : res ferr (id3v2_tag * bytes) :=
  let n := h_size h - h_ext_size h in
  let raw := takeN n r in
  let v := h_version h in
  let unsync := tf_unsync (h_flags h) in
  let body := if unsync && negb (is_v4 v) then resynchronise raw else raw in
  let? (l, _) := read_all inflate (S (length body)) v unsync o [] body in
  let l := if fo_implicit o && is_v3 v then construct_tdrc l else l in
  Ok (mkT v (h_flags h) l, dropN n r).
