(** Model of ID3v2 frames: lofty/src/id3/v2/frame/mod.rs, frame/header/mod.rs, frame/list.rs, util/upgrade.rs and, for each kind of
    frame, items/*.rs (content to bytes and back). A frame's HashMap of channels is the list of its entries in iteration order;
    an i16 is its two's complement. *)
From Verif Require Export Base Str Mode TextModel TimestampModel PictureModel SynchModel SynchSpec.
From Verif Require Export Id3v2HeaderModel.

(** ** header/mod.rs 64-77: FrameId. *)
Inductive frame_id := Valid (s : str) | Outdated (s : str).
Definition id_str (i : frame_id) : str := match i with Valid s | Outdated s => s end.
Definition is_valid_id (i : frame_id) : bool := match i with Valid _ => true | Outdated _ => false end.
Definition is_upper (c : N) : bool := (65 <=? c) && (c <=? 90).
(** lines 94-107 and 154-164 (new_cow, verify_id); the length in bytes is the length once verified. *)
Definition frame_id_new (s : str) : option frame_id :=
  if forallb (fun c => is_upper c || is_digit c) s then
    if lenN s =? 3 then Some (Outdated s) else if lenN s =? 4 then Some (Valid s) else None
  else None.
Definition str_dec (a b : str) : {a = b} + {a <> b} := list_eq_dec N.eq_dec a b.
Definition frame_id_dec (a b : frame_id) : {a = b} + {a <> b}.
Proof. decide equality; apply str_dec. Defined.
Definition id_eqb (a b : frame_id) : bool := if frame_id_dec a b then true else false.

(** ** frame/mod.rs 320-364: FrameFlags. *)
Record frame_flags := mkFF {
  ff_tag_alter : bool; ff_file_alter : bool; ff_read_only : bool; ff_group : option N; ff_compression : bool;
  ff_encryption : option N; ff_unsync : bool; ff_length : option N }.
Definition ff_default := mkFF false false false None false None false None.
Definition then_some (b : bool) (v : N) : option N := if b then Some v else None.
Definition is_some {A} (o : option A) : bool := match o with Some _ => true | None => false end.
(** lines 368-379 and 386-397 *)
Definition parse_flags24 (v : N) : frame_flags :=
  mkFF (flag v 0x4000) (flag v 0x2000) (flag v 0x1000) (then_some (flag v 0x0040) 0) (flag v 0x0008)
    (then_some (flag v 0x0004) 0) (flag v 0x0002) (then_some (flag v 0x0001) 0).
Definition parse_flags23 (v : N) : frame_flags :=
  mkFF (flag v 0x8000) (flag v 0x4000) (flag v 0x2000) (then_some (flag v 0x0020) 0) (flag v 0x0080)
    (then_some (flag v 0x0040) 0) false None.
(** lines 400-440 and 443-475; the early return for the default flags gives 0 as the rest does. *)
Definition flags24 (f : frame_flags) : N :=
  let v := if ff_tag_alter f then 0x4000 else 0 in
  let v := if ff_file_alter f then N.lor v 0x2000 else v in
  let v := if ff_read_only f then N.lor v 0x1000 else v in
  let v := if is_some (ff_group f) then N.lor v 0x0040 else v in
  let v := if ff_compression f then N.lor v 0x0008 else v in
  let v := if is_some (ff_encryption f) then N.lor v 0x0004 else v in
  let v := if ff_unsync f then N.lor v 0x0002 else v in
  if is_some (ff_length f) then N.lor v 0x0001 else v.
Definition flags23 (f : frame_flags) : N :=
  let v := if ff_tag_alter f then 0x8000 else 0 in
  let v := if ff_file_alter f then N.lor v 0x4000 else v in
  let v := if ff_read_only f then N.lor v 0x2000 else v in
  let v := if is_some (ff_group f) then N.lor v 0x0020 else v in
  let v := if ff_compression f then N.lor v 0x0080 else v in
  if is_some (ff_encryption f) then N.lor v 0x0040 else v.

Record frame_header := mkFH { fh_id : frame_id; fh_flags : frame_flags }.
Definition new_header (id : str) : frame_header := mkFH (Valid id) ff_default.

(** relative_volume_adjustment_frame.rs 81-90; the channel type is its discriminant (19-39). *)
Record channel := mkCh { ch_type : N; ch_adjust : N; ch_bits : N; ch_peak : option bytes }.
(** sync_text.rs 21-26 *)
Inductive ts_format := MPEG | MS.
Definition ts_format_u8 (f : ts_format) : N := match f with MPEG => 1 | MS => 2 end.
Definition ts_format_of (b : N) : option ts_format := if b =? 1 then Some MPEG else if b =? 2 then Some MS else None.
(** event_timing_codes_frame.rs 195-200; the event type is its discriminant, 255 being [Reserved] (27-115). *)
Record event := mkEv { ev_type : N; ev_time : N }.
(** 137-187 *)
Definition event_type_of (b : N) : N :=
  if (b <=? 0x16) || ((0xE0 <=? b) && (b <=? 0xEF)) || (b =? 0xFD) || (b =? 0xFE) then b else 0xFF.

(** ** frame/mod.rs 64-147: Frame. *)
Inductive frame :=
| FComment (h : frame_header) (e : encoding) (lang : bytes) (desc content : str)
| FUnsync (h : frame_header) (e : encoding) (lang : bytes) (desc content : str)
| FText (h : frame_header) (e : encoding) (value : str)
| FUserText (h : frame_header) (e : encoding) (desc content : str)
| FUrl (h : frame_header) (content : str)
| FUserUrl (h : frame_header) (e : encoding) (desc content : str)
| FPicture (h : frame_header) (e : encoding) (p : picture)
| FPopm (h : frame_header) (email : str) (rating counter : N)
| FKeyValue (h : frame_header) (e : encoding) (pairs : list (str * str))
| FRva2 (h : frame_header) (ident : str) (channels : list channel)
| FUfid (h : frame_header) (owner : str) (identifier : bytes)
| FOwne (h : frame_header) (e : encoding) (price date seller : str)
| FEtco (h : frame_header) (f : ts_format) (events : list event)
| FPriv (h : frame_header) (owner : str) (data : bytes)
| FTime (h : frame_header) (e : encoding) (t : timestamp)
| FChap (h : frame_header) (id : str) (times offsets : N * N) (children : list frame)
| FCtoc (h : frame_header) (id : str) (top ordered : bool) (entries : list str) (children : list frame)
| FBin (h : frame_header) (data : bytes).

Definition f_header (f : frame) : frame_header :=
  match f with
  | FComment h _ _ _ _ | FUnsync h _ _ _ _ | FText h _ _ | FUserText h _ _ _ | FUrl h _ | FUserUrl h _ _ _ | FPicture h _ _
  | FPopm h _ _ _ | FKeyValue h _ _ | FRva2 h _ _ | FUfid h _ _ | FOwne h _ _ _ _ | FEtco h _ _ | FPriv h _ _ | FTime h _ _
  | FChap h _ _ _ _ | FCtoc h _ _ _ _ _ | FBin h _ => h
  end.
Definition f_id (f : frame) : frame_id := fh_id (f_header f).
Definition f_flags (f : frame) : frame_flags := fh_flags (f_header f).
Definition f_name (f : frame) : str := id_str (f_id f).

(** PartialEq: hand written for Comment, UnsynchronizedText, Text, UserText, Url, UserUrl, Popularimeter, RVA2, UFID, Chapter and
    TableOfContents; derived for the others. *)
Definition enc_dec (a b : encoding) : {a = b} + {a <> b}. Proof. decide equality. Defined.
Definition optN_dec (a b : option N) : {a = b} + {a <> b}. Proof. decide equality. apply N.eq_dec. Defined.
Definition flags_dec (a b : frame_flags) : {a = b} + {a <> b}. Proof. decide equality; auto using Bool.bool_dec, optN_dec. Defined.
Definition header_dec (a b : frame_header) : {a = b} + {a <> b}. Proof. decide equality; auto using flags_dec, frame_id_dec. Defined.
Definition mime_dec (a b : mime_type) : {a = b} + {a <> b}. Proof. decide equality. apply str_dec. Defined.
Definition ptype_dec (a b : pic_type) : {a = b} + {a <> b}. Proof. decide equality. apply N.eq_dec. Defined.
Definition picture_dec (a b : picture) : {a = b} + {a <> b}.
Proof.
  decide equality; auto using str_dec, ptype_dec; decide equality; auto using str_dec, mime_dec.
Defined.
Definition ts_dec (a b : timestamp) : {a = b} + {a <> b}. Proof. decide equality; auto using optN_dec, N.eq_dec. Defined.
Definition pair_dec (a b : str * str) : {a = b} + {a <> b}. Proof. decide equality; apply str_dec. Defined.
Definition tsf_dec (a b : ts_format) : {a = b} + {a <> b}. Proof. decide equality. Defined.
Definition event_dec (a b : event) : {a = b} + {a <> b}. Proof. decide equality; apply N.eq_dec. Defined.
Definition yes {P : Prop} (d : {P} + {~ P}) : bool := if d then true else false.
Definition frame_eqb (f g : frame) : bool :=
  match f, g with
  | FComment _ _ l d _, FComment _ _ l' d' _ => list_eqb l l' && list_eqb d d'
  | FUnsync _ _ l d _, FUnsync _ _ l' d' _ => list_eqb l l' && list_eqb d d'
  | FText h _ _, FText h' _ _ => id_eqb (fh_id h) (fh_id h')
  | FUserText _ _ d _, FUserText _ _ d' _ => list_eqb d d'
  | FUrl h _, FUrl h' _ => id_eqb (fh_id h) (fh_id h')
  | FUserUrl _ _ d _, FUserUrl _ _ d' _ => list_eqb d d'
  | FPicture h e p, FPicture h' e' p' => yes (header_dec h h') && yes (enc_dec e e') && yes (picture_dec p p')
  | FPopm _ m _ _, FPopm _ m' _ _ => list_eqb m m'
  | FKeyValue h e l, FKeyValue h' e' l' => yes (header_dec h h') && yes (enc_dec e e') && yes (list_eq_dec pair_dec l l')
  | FRva2 _ i _, FRva2 _ i' _ => list_eqb i i'
  | FUfid _ o _, FUfid _ o' _ => list_eqb o o'
  | FOwne h e p d s, FOwne h' e' p' d' s' =>
      yes (header_dec h h') && yes (enc_dec e e') && list_eqb p p' && list_eqb d d' && list_eqb s s'
  | FEtco h t l, FEtco h' t' l' => yes (header_dec h h') && yes (tsf_dec t t') && yes (list_eq_dec event_dec l l')
  | FPriv h o d, FPriv h' o' d' => yes (header_dec h h') && list_eqb o o' && list_eqb d d'
  | FTime h e t, FTime h' e' t' => yes (header_dec h h') && yes (enc_dec e e') && yes (ts_dec t t')
  | FChap _ i _ _ _, FChap _ i' _ _ _ => list_eqb i i'
  | FCtoc _ i _ _ _ _, FCtoc _ i' _ _ _ _ => list_eqb i i'
  | FBin h d, FBin h' d' => yes (header_dec h h') && list_eqb d d'
  | _, _ => false
  end.

(** frame/mod.rs 201-227: is_empty. *)
Definition empty {A} (l : list A) : bool := match l with [] => true | _ => false end.
Definition f_is_empty (f : frame) : option bool :=
  match f with
  | FText _ _ v => Some (empty v) | FUserText _ _ _ c => Some (empty c) | FUrl _ c => Some (empty c)
  | FUserUrl _ _ _ c => Some (empty c) | FComment _ _ _ _ c => Some (empty c) | FUnsync _ _ _ _ c => Some (empty c)
  | FPicture _ _ p => Some (empty (p_data p)) | FKeyValue _ _ l => Some (empty l) | FUfid _ _ i => Some (empty i)
  | FEtco _ _ l => Some (empty l) | FPriv _ _ d => Some (empty d) | FBin _ d => Some (empty d)
  | _ => None
  end.

(** ** frame/list.rs: FrameList (get 35-37, get_text 71-78). *)
Definition fl_get (id : frame_id) (l : list frame) : option frame := find (fun f => id_eqb (f_id f) id) l.
Definition fl_get_text (id : frame_id) (l : list frame) : option str :=
  match fl_get id l with Some (FText _ _ v) => Some v | _ => None end.
(** remove (328-341): matches are swapped to the front and drained; a swap moves the first of the frames kept so far to their end. *)
Definition rotate {A} (l : list A) : list A := match l with [] => [] | x :: l' => l' ++ [x] end.
Fixpoint fl_partition (id : frame_id) (kept : list frame) (l : list frame) : list frame :=
  match l with
  | [] => kept
  | f :: l' => if id_eqb (f_id f) id then fl_partition id (rotate kept) l' else fl_partition id (kept ++ [f]) l'
  end.
Definition fl_removed (id : frame_id) (l : list frame) : list frame := filter (fun f => id_eqb (f_id f) id) l.
Definition fl_remove (id : frame_id) (l : list frame) : list frame := fl_partition id [] l.
(** iter().position(p).map(|pos| remove(pos)) *)
Fixpoint take_first (p : frame -> bool) (l : list frame) : option frame * list frame :=
  match l with
  | [] => (None, [])
  | f :: l' => if p f then (Some f, l') else let '(o, r) := take_first p l' in (o, f :: r)
  end.
Definition ONE_PER_TAG : list str :=
  [$"MCDI"; $"ETCO"; $"MLLT"; $"SYTC"; $"RVRB"; $"PCNT"; $"RBUF"; $"POSS"; $"OWNE"; $"SEEK"; $"ASPI"].
Definition in_names (s : str) (l : list str) : bool := existsb (list_eqb s) l.
(** insert (239-261); the frame that was replaced is returned. *)
Definition fl_insert (f : frame) (l : list frame) : list frame * option frame :=
  if in_names (f_name f) ONE_PER_TAG
  then (fl_remove (f_id f) l ++ [f], hd_error (fl_removed (f_id f) l))
  else let '(o, r) := take_first (fun g => frame_eqb g f) l in (r ++ [f], o).

(** ** util/upgrade.rs *)
Definition V2_KEYS : list (str * str) :=
  [($"BUF", $"RBUF"); ($"CNT", $"PCNT"); ($"COM", $"COMM"); ($"CRA", $"AENC"); ($"ETC", $"ETCO"); ($"GEO", $"GEOB"); ($"IPL", $"TIPL");
   ($"MCI", $"MCDI"); ($"MLL", $"MLLT"); ($"PIC", $"APIC"); ($"POP", $"POPM"); ($"REV", $"RVRB"); ($"SLT", $"SYLT"); ($"STC", $"SYTC");
   ($"TAL", $"TALB"); ($"TBP", $"TBPM"); ($"TCM", $"TCOM"); ($"TCO", $"TCON"); ($"TCP", $"TCMP"); ($"TCR", $"TCOP"); ($"TDY", $"TDLY");
   ($"TEN", $"TENC"); ($"TFT", $"TFLT"); ($"TKE", $"TKEY"); ($"TLA", $"TLAN"); ($"TLE", $"TLEN"); ($"TMT", $"TMED"); ($"TOA", $"TOAL");
   ($"TOF", $"TOFN"); ($"TOL", $"TOLY"); ($"TOR", $"TDOR"); ($"TOT", $"TOAL"); ($"TP1", $"TPE1"); ($"TP2", $"TPE2"); ($"TP3", $"TPE3");
   ($"TP4", $"TPE4"); ($"TPA", $"TPOS"); ($"TPB", $"TPUB"); ($"TRC", $"TSRC"); ($"TRD", $"TDRC"); ($"TRK", $"TRCK"); ($"TS2", $"TSO2");
   ($"TSA", $"TSOA"); ($"TSC", $"TSOC"); ($"TSP", $"TSOP"); ($"TSS", $"TSSE"); ($"TST", $"TSOT"); ($"TT1", $"TIT1"); ($"TT2", $"TIT2");
   ($"TT3", $"TIT3"); ($"TXT", $"TOLY"); ($"TXX", $"TXXX"); ($"TYE", $"TDRC"); ($"UFI", $"UFID"); ($"ULT", $"USLT"); ($"WAF", $"WOAF");
   ($"WAR", $"WOAR"); ($"WAS", $"WOAS"); ($"WCM", $"WCOM"); ($"WCP", $"WCOP"); ($"WPB", $"WPUB"); ($"WXX", $"WXXX"); ($"PCS", $"PCST");
   ($"TCT", $"TCAT"); ($"TDS", $"TDES"); ($"TID", $"TGID"); ($"WFD", $"WFED"); ($"MVI", $"MVIN"); ($"MVN", $"MVNM"); ($"GP1", $"GRP1");
   ($"TDR", $"TDRL")].
Definition V3_KEYS : list (str * str) := [($"TORY", $"TDOR"); ($"TYER", $"TDRC"); ($"IPLS", $"TIPL")].
Definition assoc (k : str) (l : list (str * str)) : option str :=
  match find (fun p => list_eqb (fst p) k) l with Some (_, v) => Some v | None => None end.
Definition upgrade_v2 (k : str) : option str := assoc k V2_KEYS.
Definition upgrade_v3 (k : str) : option str := assoc k V3_KEYS.
Definition upgraded (o : option str) (s : str) : str := match o with Some v => v | None => s end.

(** ** Errors (frame/error.rs), by cause. *)
Inductive ferr := EUndersized | EEof | EEncoding | EText | ETime | ELang | EVersion | EMessage | ENoLength | ETooMuch | ESynch.
Definition from_opt {A} (o : option A) (e : ferr) : res ferr A := match o with Some a => Ok a | None => Err e end.
Definition as_ferr {E A} (r : res E A) (e : ferr) : res ferr A :=
  match r with Ok a => Ok a | Err _ => Err e | Panic => Panic end.

(** frame/content.rs 82-94: verify_encoding. *)
Definition verify_encoding (b : N) (v : id3v2_version) : res ferr encoding :=
  if is_v2 v && negb ((b =? 0) || (b =? 1)) then Err EEncoding else from_opt (enc_of_u8 b) EEncoding.

(** ** Contents to frames. Each parser gives the frame ([None]: Ok(None), the frame is skipped) and what it left unread. *)
Definition parsed := res ferr (option frame * bytes).
Definition dec_term (e : encoding) (r : bytes) : res ferr (decoded * bytes) := as_ferr (decode_text e true (0, 0) r) EText.
Definition dec_rest (e : encoding) (r : bytes) : res ferr (decoded * bytes) := as_ferr (decode_text e false (0, 0) r) EText.
Definition text_or_none (s : str) : option str := match s with [] => None | _ => Some s end.

(** text_information_frame.rs 74-102 *)
Definition parse_text (h : frame_header) (v : id3v2_version) (r : bytes) : parsed :=
  match read_u8 r with
  | None => Ok (None, [])
  | Some (b, r) =>
      let? e := verify_encoding b v in
      let? (d, r) := dec_rest e r in
      Ok (Some (FText h e (d_content d)), r)
  end.
(** extended_text_frame.rs 90-180 *)
Definition parse_user_text (h : frame_header) (v : id3v2_version) (r : bytes) : parsed :=
  match read_u8 r with
  | None => Ok (None, [])
  | Some (b, r) =>
      let? e := verify_encoding b v in
      let? (d, r) := dec_term e r in
      match e with
      | UTF16 =>
          match r with
          | [] => Ok (Some (FUserText h e (d_content d) []), [])
          | _ =>
              let bom := match r with
                         | a :: b :: _ => if ((a =? 0xFF) && (b =? 0xFE)) || ((a =? 0xFE) && (b =? 0xFF)) then (a, b) else d_bom d
                         | _ => d_bom d
                         end in
              let? be := (if bom_eqb bom (0, 0) then Err EText
                          else if bom_eqb bom (0xFF, 0xFE) then Ok false
                          else if bom_eqb bom (0xFE, 0xFF) then Ok true
                          else Panic) in
              let? s := as_ferr (utf16_decode_bytes r be) EText in
              Ok (Some (FUserText h e (d_content d) s), [])
          end
      | _ =>
          let? (c, r) := dec_rest e r in
          Ok (Some (FUserText h e (d_content d) (d_content c)), r)
      end
  end.
(** extended_url_frame.rs 88-133 *)
Definition parse_user_url (h : frame_header) (v : id3v2_version) (r : bytes) : parsed :=
  match read_u8 r with
  | None => Ok (None, [])
  | Some (b, r) =>
      let? e := verify_encoding b v in
      let? (d, r) := dec_term e r in
      let? (c, r) := dec_rest Latin1 r in
      Ok (Some (FUserUrl h e (d_content d) (d_content c)), r)
  end.
(** language_frame.rs 30-83 (LanguageFrame::parse); [mk] makes the Comment or UnsynchronizedText frame. *)
Definition parse_lang (mk : encoding -> bytes -> str -> str -> frame) (v : id3v2_version) (r : bytes) : parsed :=
  match read_u8 r with
  | None => Ok (None, [])
  | Some (b, r) =>
      let? e := verify_encoding b v in
      let? (lang, r) := from_opt (read_exact 3 r) EEof in
      let? (d, r) := dec_term e r in
      let endian := match e with
                    | UTF16 => if bom_eqb (d_bom d) (0xFF, 0xFE) then Some false
                               else if bom_eqb (d_bom d) (0xFE, 0xFF) then Some true else None
                    | _ => None
                    end in
      match endian with
      | Some be =>
          let? (s, _, r) := as_ferr (utf16_decode_terminated_maybe_bom r be) EText in
          Ok (Some (mk e lang (d_content d) s), r)
      | None =>
          let? (c, r) := dec_rest e r in
          Ok (Some (mk e lang (d_content d) (d_content c)), r)
      end
  end.
(** attached_picture_frame.rs 67-142 *)
Definition parse_picture (h : frame_header) (v : id3v2_version) (r : bytes) : parsed :=
  let? (b, r) := from_opt (read_u8 r) EEof in
  let? e := from_opt (enc_of_u8 b) EEncoding in
  let? (mime, r) :=
    (if is_v2 v then
       let? (f, r) := from_opt (read_exact 3 r) EEof in
       if list_eqb f ($"PNG") then Ok (Some Png, r) else if list_eqb f ($"JPG") then Ok (Some Jpeg, r) else Err EMessage
     else
       let? (d, r) := dec_term Latin1 r in
       Ok (match d_content d with [] => None | s => Some (mime_from_str s) end, r)) in
  let? (t, r) := from_opt (read_u8 r) EEof in
  let? (d, r) := dec_term e r in
  Ok (Some (FPicture h e (mkPic (pic_from_u8 t) mime (text_or_none (d_content d)) r)), []).
(** key_value_frame.rs 65-135; the loop (113-127) reads strings until one of a pair is missing. *)
Fixpoint kv_loop (fuel : nat) (e : encoding) (bom : N * N) (acc : list (str * str)) (r : bytes) : res ferr (list (str * str) * bytes) :=
  match fuel with
  | O => Panic
  | S fuel =>
      let? (k, r) := as_ferr (decode_text e true bom r) EText in
      let? (v, r) := as_ferr (decode_text e true bom r) EText in
      if (d_read k =? 0) || (d_read v =? 0) then Ok (acc, r)
      else kv_loop fuel e bom (acc ++ [(d_content k, d_content v)]) r
  end.
Definition parse_key_value (h : frame_header) (v : id3v2_version) (r : bytes) : parsed :=
  let? (b, r) := from_opt (read_u8 r) EEof in
  let? e := verify_encoding b v in
  let? (k, r) := dec_term e r in
  if d_read k =? 0 then Ok (None, r) else
  let bom := match e with UTF16 => d_bom k | _ => (0, 0) end in
  let? (w, r) := as_ferr (decode_text e true bom r) EText in
  let? (l, r) := kv_loop (S (length r)) e bom [(d_content k, d_content w)] r in
  Ok (Some (FKeyValue h e l), r).
(** unique_file_identifier.rs 66-113 *)
Definition is_best (m : pmode) : bool := match m with BestAttempt => true | _ => false end.
Definition parse_ufid (h : frame_header) (m : pmode) (r : bytes) : parsed :=
  let? (d, r) := dec_term Latin1 r in
  match d_content d with
  | [] => if is_best m then Ok (Some (FUfid h [] r), []) else Err EMessage
  | o => Ok (Some (FUfid h o r), [])
  end.
(** relative_volume_adjustment_frame.rs 153-225; HashMap::insert replaces. *)
Fixpoint ch_insert (c : channel) (l : list channel) : list channel :=
  match l with
  | [] => [c]
  | x :: l' => if ch_type x =? ch_type c then c :: l' else x :: ch_insert c l'
  end.
Fixpoint rva2_loop (fuel : nat) (m : pmode) (acc : list channel) (r : bytes) : res ferr (list channel) :=
  match fuel with
  | O => Panic
  | S fuel =>
      match read_u8 r with
      | None => Ok acc
      | Some (b, r) =>
          let? t := (if b <=? 8 then Ok b else if is_best m then Ok 0 else Err EMessage) in
          let? (vol, r) := from_opt (read_be 2 r) EEof in
          let? (bits, r) := from_opt (read_u8 r) EEof in
          let? (peak, r) :=
            (if 0 <? bits then
               let? (p, r) := from_opt (read_exact ((bits + 7) / 8) r) EEof in Ok (Some p, r)
             else Ok (None, r)) in
          rva2_loop fuel m (ch_insert (mkCh t vol bits peak) acc) r
      end
  end.
Definition parse_rva2 (h : frame_header) (m : pmode) (r : bytes) : parsed :=
  let? (d, r) := dec_term Latin1 r in
  let? l := rva2_loop (S (length r)) m [] r in
  Ok (Some (FRva2 h (d_content d) l), []).
(** ownership_frame.rs 77-125 *)
Definition parse_owne (h : frame_header) (r : bytes) : parsed :=
  match read_u8 r with
  | None => Ok (None, [])
  | Some (b, r) =>
      let? e := from_opt (enc_of_u8 b) EEncoding in
      let? (p, r) := dec_term Latin1 r in
      let? (db, r) := from_opt (read_exact 8 r) EEof in
      let? date := as_ferr (utf8_decode db) EText in
      let? (s, r) := dec_rest e r in
      Ok (Some (FOwne h e (d_content p) date (d_content s)), r)
  end.
(** event_timing_codes_frame.rs 262-308; [sort] is stable. *)
Fixpoint ev_insert (x : event) (l : list event) : list event :=
  match l with [] => [x] | y :: l' => if ev_time x <=? ev_time y then x :: l else y :: ev_insert x l' end.
Definition ev_sort (l : list event) : list event := fold_right ev_insert [] l.
Fixpoint etco_loop (fuel : nat) (r : bytes) : res ferr (list event) :=
  match fuel with
  | O => Panic
  | S fuel =>
      match read_u8 r with
      | None => Ok []
      | Some (b, r) =>
          let? (t, r) := from_opt (read_be 4 r) EEof in
          let? l := etco_loop fuel r in
          Ok (mkEv (event_type_of b) t :: l)
      end
  end.
Definition parse_etco (h : frame_header) (r : bytes) : parsed :=
  match read_u8 r with
  | None => Ok (None, [])
  | Some (b, r) =>
      let? f := from_opt (ts_format_of b) EMessage in
      let? l := etco_loop (S (length r)) r in
      Ok (Some (FEtco h f (ev_sort l)), [])
  end.
(** private_frame.rs 60-100 *)
Definition parse_priv (h : frame_header) (r : bytes) : parsed :=
  match dec_term Latin1 r with
  | Ok (d, r) => Ok (Some (FPriv h (d_content d) r), [])
  | Err _ => Ok (None, [])
  | Panic => Panic
  end.
(** timestamp_frame.rs 68-119 *)
Definition is_relaxed (m : pmode) : bool := match m with Relaxed => true | _ => false end.
Definition parse_time (h : frame_header) (m : pmode) (r : bytes) : parsed :=
  let? (b, r) := from_opt (read_u8 r) EEof in
  match enc_of_u8 b with
  | None => if is_relaxed m then Ok (None, r) else Err EEncoding
  | Some e =>
      let? (d, r) := dec_rest e r in
      match ts_parse (utf8_enc (d_content d)) m with
      | Ok (Some t) => Ok (Some (FTime h e t), r)
      | Ok None => Ok (None, r)
      | Err _ => if is_relaxed m then Ok (None, r) else Err ETime
      | Panic => Panic
      end
  end.
(** url_link_frame.rs 61-88 *)
Definition parse_url (h : frame_header) (r : bytes) : parsed :=
  let? (d, r) := dec_term Latin1 r in
  if d_read d =? 0 then Ok (None, r) else Ok (Some (FUrl h (d_content d)), r).
(** popularimeter.rs 82-128 *)
Definition parse_popm (h : frame_header) (r : bytes) : parsed :=
  let? (d, r) := dec_term Latin1 r in
  let? (rating, r) := from_opt (read_u8 r) EEof in
  Ok (Some (FPopm h (d_content d) rating (if 8 <? lenN r then U64_MAX else be_dec r)), []).
(** binary_frame.rs 47-65 *)
Definition parse_bin (h : frame_header) (r : bytes) : parsed := Ok (Some (FBin h r), []).
(** chapter_frame.rs 171-208; [kids] is read_all_frames_into_list. *)
Definition kids_reader := bytes -> res ferr (list frame * bytes).
Definition parse_chap (kids : kids_reader) (h : frame_header) (v : id3v2_version) (r : bytes) : parsed :=
  if is_v2 v then Err EVersion else
  let? (d, r) := dec_term Latin1 r in
  let? (st, r) := from_opt (read_be 4 r) EEof in
  let? (et, r) := from_opt (read_be 4 r) EEof in
  let? (so, r) := from_opt (read_be 4 r) EEof in
  let? (eo, r) := from_opt (read_be 4 r) EEof in
  let? (l, r) := kids r in
  Ok (Some (FChap h (d_content d) (st, et) (so, eo) l), r).
(** table_of_contents_frame.rs 228-276, 37-44 (flags) *)
Fixpoint ctoc_entries (n : nat) (r : bytes) : res ferr (list str * bytes) :=
  match n with
  | O => Ok ([], r)
  | S n => let? (d, r) := dec_term Latin1 r in let? (l, r) := ctoc_entries n r in Ok (d_content d :: l, r)
  end.
Definition parse_ctoc (kids : kids_reader) (h : frame_header) (v : id3v2_version) (r : bytes) : parsed :=
  if is_v2 v then Err EVersion else
  let? (d, r) := dec_term Latin1 r in
  let? (fl, r) := from_opt (read_u8 r) EEof in
  let? (n, r) := from_opt (read_u8 r) EEof in
  let? (es, r) := ctoc_entries (N.to_nat n) r in
  let? (l, r) := kids r in
  Ok (Some (FCtoc h (d_content d) (flag fl 2) (flag fl 1) es l), r).

(** frame/content.rs 15-80: parse_content. The frames with a fixed id get that id in their header. *)
Definition TIME_IDS : list str := [$"TDEN"; $"TDOR"; $"TDRC"; $"TDRL"; $"TDTG"].
Definition starts (c : N) (s : str) : bool := match s with x :: _ => x =? c | [] => false end.
Definition parse_content (kids : kids_reader) (id : frame_id) (fl : frame_flags) (v : id3v2_version) (m : pmode) (r : bytes) : parsed :=
  let s := id_str id in
  let is := list_eqb s in
  let own := mkFH id fl in
  let fixed := mkFH (Valid s) fl in
  if is ($"APIC") then parse_picture fixed v r
  else if is ($"TXXX") then parse_user_text fixed v r
  else if is ($"WXXX") then parse_user_url fixed v r
  else if is ($"COMM") then parse_lang (FComment fixed) v r
  else if is ($"USLT") then parse_lang (FUnsync fixed) v r
  else if is ($"TIPL") || is ($"TMCL") then parse_key_value own v r
  else if is ($"UFID") then parse_ufid fixed m r
  else if is ($"RVA2") then parse_rva2 fixed m r
  else if is ($"OWNE") then parse_owne fixed r
  else if is ($"ETCO") then parse_etco fixed r
  else if is ($"PRIV") then parse_priv fixed r
  else if in_names s TIME_IDS then parse_time own m r
  else if starts 84 s then parse_text own v r
  else if is ($"GRP1") || is ($"MVNM") || is ($"MVIN") then parse_text own v r
  else if starts 87 s then parse_url own r
  else if is ($"POPM") then parse_popm fixed r
  else if is ($"CHAP") then parse_chap kids fixed v r
  else if is ($"CTOC") then parse_ctoc kids fixed v r
  else parse_bin own r.

(** ** Frames to contents: as_bytes of each item. [ne]: the machine is big endian. *)
Record wopts := mkW { w_v23 : bool; w_lossy : bool; w_ne : bool; w_padding : option N }.
Definition w_enc (w : wopts) (e : encoding) : encoding := if w_v23 w then to_id3v23 e else e.
Definition enc_text (w : wopts) (e : encoding) (s : str) (term : bool) : res ferr bytes :=
  as_ferr (encode (w_ne w) e s term (w_lossy w)) EText.
(** [u8::is_ascii_alphabetic] *)
Definition is_alpha (c : N) : bool := is_upper c || ((97 <=? c) && (c <=? 122)).

(** language_frame.rs 85-111 *)
Definition lang_bytes (w : wopts) (e : encoding) (lang : bytes) (desc content : str) : res ferr bytes :=
  let e := w_enc w e in
  if existsb (fun c => negb (is_alpha c)) lang then Err ELang else
  let? d := enc_text w e desc true in
  let? c := enc_text w e content false in
  Ok (enc_to_u8 e :: lang ++ d ++ c).
(** text_information_frame.rs 109-119 *)
Definition text_bytes (w : wopts) (e : encoding) (v : str) : res ferr bytes :=
  let e := w_enc w e in
  let? b := enc_text w e v false in Ok (enc_to_u8 e :: b).
(** extended_text_frame.rs 189-205, extended_url_frame.rs 140-156 *)
Definition user_bytes (w : wopts) (e : encoding) (desc content : str) : res ferr bytes :=
  let e := w_enc w e in
  let? d := enc_text w e desc true in
  let? c := enc_text w e content false in
  Ok (enc_to_u8 e :: d ++ c).
(** attached_picture_frame.rs 152-180 *)
Definition picture_bytes (w : wopts) (e : encoding) (p : picture) : res ferr bytes :=
  let e := w_enc w e in
  let? d := enc_text w e (match p_desc p with Some s => s | None => [] end) true in
  let out := enc_to_u8 e :: (match p_mime p with Some m => utf8_enc (mime_as_str m) | None => [] end)
               ++ 0 :: pic_as_u8 (p_type p) :: d ++ p_data p in
  if U32_MAX <? lenN out then Err ETooMuch else Ok out.
(** popularimeter.rs 138-161; [position] finds a nonzero byte as the counter exceeds u32. *)
Fixpoint drop_zeros (l : bytes) : bytes := match l with 0 :: l' => drop_zeros l' | _ => l end.
Definition popm_bytes (w : wopts) (email : str) (rating counter : N) : res ferr bytes :=
  let? m := enc_text w Latin1 email true in
  Ok (m ++ rating :: (if counter <=? U32_MAX then be_enc 4 counter else drop_zeros (be_enc 8 counter))).
(** key_value_frame.rs 142-155 *)
Fixpoint pairs_bytes (w : wopts) (e : encoding) (l : list (str * str)) : res ferr bytes :=
  match l with
  | [] => Ok []
  | (k, v) :: l' =>
      let? a := enc_text w e k true in
      let? b := enc_text w e v true in
      let? r := pairs_bytes w e l' in
      Ok (a ++ b ++ r)
  end.
Definition key_value_bytes (w : wopts) (e : encoding) (l : list (str * str)) : res ferr bytes :=
  let e := w_enc w e in
  let? b := pairs_bytes w e l in Ok (enc_to_u8 e :: b).
(** relative_volume_adjustment_frame.rs 232-271; the sum of leading ones is a u8 (overflow panics in a checked build). *)
Definition leading_ones (b : N) : N :=
  if b =? 255 then 8 else if 254 <=? b then 7 else if 252 <=? b then 6 else if 248 <=? b then 5 else if 240 <=? b then 4
  else if 224 <=? b then 3 else if 192 <=? b then 2 else if 128 <=? b then 1 else 0.
Definition ch_bytes (c : channel) : res ferr bytes :=
  let head := ch_type c :: be_enc 2 (ch_adjust c) in
  match ch_peak c with
  | None => Ok (head ++ [0])
  | Some p =>
      let? bits := (if (ch_bits c + 7) / 8 <? lenN p then
                      let s := sumN (map leading_ones (takeN 32 p)) in if 255 <? s then Panic else Ok s
                    else Ok (ch_bits c)) in
      Ok (head ++ bits :: takeN 32 p)
  end.
Fixpoint concat_res {A} (f : A -> res ferr bytes) (l : list A) : res ferr bytes :=
  match l with
  | [] => Ok []
  | x :: l' => let? a := f x in let? b := concat_res f l' in Ok (a ++ b)
  end.
Definition rva2_bytes (w : wopts) (ident : str) (l : list channel) : res ferr bytes :=
  let? i := enc_text w Latin1 ident true in
  let? c := concat_res ch_bytes l in
  Ok (i ++ c).
(** unique_file_identifier.rs 120-134, private_frame.rs 108-124 *)
Definition owner_bytes (w : wopts) (owner : str) (data : bytes) : res ferr bytes :=
  let? o := enc_text w Latin1 owner true in Ok (o ++ data).
(** ownership_frame.rs 135-159 *)
Definition owne_bytes (w : wopts) (e : encoding) (price date seller : str) : res ferr bytes :=
  let e := w_enc w e in
  let? p := enc_text w Latin1 price true in
  if lenN (utf8_enc date) <? 8 then Err EMessage else
  let? s := enc_text w e seller false in
  Ok (enc_to_u8 e :: p ++ takeN 8 (utf8_enc date) ++ s).
(** event_timing_codes_frame.rs 319-332 *)
Definition etco_bytes (f : ts_format) (l : list event) : bytes :=
  ts_format_u8 f :: flat_map (fun e => ev_type e :: be_enc 4 (ev_time e)) (ev_sort l).
(** timestamp_frame.rs 127-143 *)
Definition time_bytes (w : wopts) (e : encoding) (t : timestamp) : res ferr bytes :=
  let e := w_enc w e in
  let? _ := as_ferr (ts_verify t) ETime in
  let? b := enc_text w e (ts_display t) false in
  Ok (enc_to_u8 e :: b).
(** url_link_frame.rs 95-100 *)
Definition url_bytes (w : wopts) (c : str) : res ferr bytes := enc_text w Latin1 c false.

(** frame/mod.rs 248-294: as_bytes of the frames without frames inside. *)
Definition leaf_bytes (w : wopts) (f : frame) : res ferr bytes :=
  match f with
  | FComment _ e l d c | FUnsync _ e l d c => lang_bytes w e l d c
  | FText _ e v => text_bytes w e v
  | FUserText _ e d c | FUserUrl _ e d c => user_bytes w e d c
  | FUrl _ c => url_bytes w c
  | FPicture _ e p => picture_bytes w e p
  | FPopm _ m r c => popm_bytes w m r c
  | FKeyValue _ e l => key_value_bytes w e l
  | FRva2 _ i l => rva2_bytes w i l
  | FUfid _ o d | FPriv _ o d => owner_bytes w o d
  | FOwne _ e p d s => owne_bytes w e p d s
  | FEtco _ t l => Ok (etco_bytes t l)
  | FTime _ e t => time_bytes w e t
  | FBin _ d => Ok d
  | FChap _ _ _ _ _ | FCtoc _ _ _ _ _ _ => Ok []
  end.
