(** Model of lofty/src/flac/block.rs, flac/read.rs, flac/properties.rs, flac/write.rs (1-175, 308-330; the rest is FlacMoveModel.v)
    and of saving a FlacFile and turning it into a TaggedFile (flac/mod.rs 58-160), without the content of ID3v2 tags. *)
From Verif Require Export Base Str Mode TextModel PictureModel Id3v2HeaderModel FileModel VorbisModel FlacMoveModel.

Inductive flac_error := FlEof | FlMarker | FlNoInfo | FlSize | FlMultiple | FlPicture | FlComments (e : vc_error) | FlTooMuch | FlMove | FlFind.
Definition frd {A} (o : option A) : res flac_error A := match o with Some x => Ok x | None => Err FlEof end.

(** ** block.rs *)
Definition STREAMINFO : N := 0.
Definition PADDING : N := 1.
Definition COMMENTS : N := 4.
Definition PICTURE : N := 6.
Definition MAX_CONTENT : N := 16777215.
(** lines 20-26 without the positions *)
Record block := mkBlock { b_ty : N; b_last : bool; b_content : bytes }.
(** lines 32-63: the block at [pos] and its end. The content is skipped when the predicate says so; seeking past the end is no error. *)
Definition block_read (want : N -> bool) (data : bytes) (pos : N) : res flac_error (block * N) :=
  let? (byte, r) := frd (read_u8 (dropN pos data)) in
  let last := negb (N.land byte 0x80 =? 0) in
  let ty := N.land byte 0x7F in
  let? (size, r) := frd (read_be 3 r) in
  let? content := (if want ty then let? (c, _) := frd (read_exact size r) in Ok c else Ok []) in
  Ok (mkBlock ty last content, pos + size + 4).
(** lines 125-145 *)
Definition block_write (b : block) : res flac_error bytes :=
  if MAX_CONTENT <? lenN (b_content b) then Err FlTooMuch else
  Ok ([N.lor (N.land (b_ty b) 0x7F) (if b_last b then 0x80 else 0)] ++ be_enc 3 (lenN (b_content b)) ++ b_content b).
(** lines 69-79, 81-97, 99-123 *)
Definition new_padding (size : N) : block := mkBlock PADDING false (repeat 0 (N.to_nat (N.min size MAX_CONTENT))).
Definition new_picture (x : picture * pic_info) : res flac_error block :=
  let d := as_flac_bytes (fst x) (snd x) false in
  if MAX_CONTENT <? lenN d then Err FlTooMuch else Ok (mkBlock PICTURE false d).
Definition new_comments (vendor : str) (items : list (str * str)) : res flac_error block :=
  match create_comments items with
  | Ok cs =>
      if U32_MAX <? lenN cs then Panic else
      let b := vendor_bytes vendor ++ le_enc 4 (lenN cs) ++ flat_map comment_bytes cs in
      if MAX_CONTENT <? lenN b then Err FlTooMuch else Ok (mkBlock COMMENTS false b)
  | Err e => Err (FlComments e)
  | Panic => Panic
  end.

(** ** read.rs 15-38: the stream information and its end *)
Definition verify_flac (data : bytes) (pos : N) : res flac_error (block * N) :=
  let? (marker, _) := frd (read_exact 4 (dropN pos data)) in
  if negb (list_eqb marker ($"fLaC")) then Err FlMarker else
  let? (b, e) := block_read (fun _ => true) data (pos + 4) in
  if b_ty b =? STREAMINFO then Ok (b, e) else Err FlNoInfo.

(** ** properties.rs 71-126; milliseconds. The products are u64. *)
Record flac_props := mkFp { fp_duration : N; fp_overall : N; fp_audio : N; fp_rate : N; fp_depth : N; fp_channels : N; fp_md5 : N }.
Definition fp_default : flac_props := mkFp 0 0 0 0 0 0 0.
Definition flac_read_properties (info : bytes) (stream_len file_len : N) : res flac_error flac_props :=
  let? (_a, r) := frd (read_be 4 info) in
  let? (_b, r) := frd (read_be 6 r) in
  let? (i, r) := frd (read_be 4 r) in
  let rate := N.shiftr i 12 in
  let depth := N.land (N.shiftr i 4) 31 + 1 in
  let channels := N.land (N.shiftr i 9) 7 + 1 in
  let? (lo, r) := frd (read_be 4 r) in
  let total := N.lor (N.shiftl (N.land i 0xF) 32) lo in
  let? (md5, r) := frd (read_be 16 r) in
  if (0 <? rate) && (0 <? total) then
    let length := total * 1000 / rate in
    if (0 <? length) && (0 <? file_len) && (0 <? stream_len) then
      if U64_MAX <? file_len * 8 then Panic else
      Ok (mkFp length ((file_len * 8 / length) mod 2 ^ 32) ((stream_len * 8 / length) mod 2 ^ 32) rate depth channels md5)
    else Ok (mkFp length 0 0 rate depth channels md5)
  else Ok (mkFp 0 0 0 rate depth channels md5).

(** ** read.rs 40-156. The ID3v2 content is judged by [id3v2_ok]. *)
Record fopts := mkFo { fo_vo : vopts; fo_tags : bool; fo_props : bool }.
Record flac_file := mkFlac { ff_tag : option vc; ff_pics : list (picture * pic_info); ff_props : flac_props }.
Definition read_block_into (o : fopts) (b : block) (f : flac_file) : res flac_error flac_file :=
  match b_content b with
  | [] => Ok f
  | _ =>
      if (b_ty b =? COMMENTS) && fo_tags o then
        if (match ff_tag f with Some _ => true | None => false end) && is_strict (vo_mode (fo_vo o)) then Err FlMultiple else
        match read_comments (fo_vo o) (lenN (b_content b)) (b_content b) with
        | Ok t => Ok (mkFlac (Some t) (ff_pics f) (ff_props f))
        | Err e => Err (FlComments e)
        | Panic => Panic
        end
      else if (b_ty b =? PICTURE) && vo_cover (fo_vo o) then
        match from_flac_bytes (b_content b) false (vo_mode (fo_vo o)) with
        | Ok p => Ok (mkFlac (ff_tag f) (ff_pics f ++ [p]) (ff_props f))
        | Err _ => if is_strict (vo_mode (fo_vo o)) then Err FlPicture else Ok f
        | Panic => Panic
        end
      else Ok f
  end.
Definition want_read (o : fopts) (ty : N) : bool := ((ty =? COMMENTS) && fo_tags o) || ((ty =? PICTURE) && vo_cover (fo_vo o)).
(** lines 78-127. A block takes at least four bytes, so [fuel] above the length of the file does not run out. *)
Fixpoint read_blocks (fuel : nat) (o : fopts) (data : bytes) (pos : N) (last : bool) (f : flac_file) : res flac_error (flac_file * N) :=
  if last then Ok (f, pos) else
  match fuel with
  | O => Err FlEof
  | S fuel =>
      let? (b, e) := block_read (want_read o) data pos in
      let? f := read_block_into o b f in
      read_blocks fuel o data e (b_last b) f
  end.
Definition flac_read (id3v2_ok : id3v2_header -> bytes -> bool) (o : fopts) (data : bytes) : res flac_error flac_file :=
  match find_id3v2 data 0 (fo_tags o) None with
  | Ok (h, content, p) =>
      let? _u := (match h, content with Some h, Some c => if id3v2_ok h c then Ok 0 else Err FlFind | _, _ => Ok 0 end) in
      let? (info, e) := verify_flac data p in
      if e - (p + 4) <? 18 then Err FlSize else
      let? (f, pos) := read_blocks (S (length data)) o data e (b_last info) (mkFlac None [] fp_default) in
      if negb (fo_props o) then Ok f else
      if lenN data <? pos then Err FlSize else
      let? props := flac_read_properties (b_content info) (lenN data - pos) (lenN data) in
      Ok (mkFlac (ff_tag f) (ff_pics f) props)
  | Err _ => Err FlFind
  | Panic => Panic
  end.

(** ** write.rs 49-175. The state of the loop over the blocks, lines 66-122; all blocks are kept with [last = false]. *)
Record wstate := mkW { w_blocks : list block; w_vendor : str; w_remove : bool; w_padding : bool }.
(** lines 90-106: the vendor of a comment block *)
Definition block_vendor (content : bytes) : res flac_error str :=
  let? (n, r) := frd (read_le 4 content) in
  if lenN r <? n then Err FlSize else
  let? (v, _) := frd (read_exact n r) in
  Ok (match utf8_dec v with Some s => s | None => [] end).
Fixpoint write_loop (fuel : nat) (data : bytes) (pos : N) (last : bool) (w : wstate) : res flac_error (wstate * N) :=
  if last then Ok (w, pos) else
  match fuel with
  | O => Err FlEof
  | S fuel =>
      let? (b, e) := block_read (fun ty => negb (ty =? PICTURE)) data pos in
      let? w := (if b_ty b =? PICTURE then Ok (mkW (w_blocks w) (w_vendor w) true (w_padding w))
                 else if b_ty b =? COMMENTS then let? v := block_vendor (b_content b) in Ok (mkW (w_blocks w) v true (w_padding w))
                 else Ok (mkW (w_blocks w ++ [mkBlock (b_ty b) false (b_content b)]) (w_vendor w) (w_remove w) (w_padding w || (b_ty b =? PADDING)))) in
      write_loop fuel data e (b_last b) w
  end.
Fixpoint picture_blocks (l : list (picture * pic_info)) : res flac_error (list block) :=
  match l with
  | [] => Ok []
  | x :: l => let? b := new_picture x in let? r := picture_blocks l in Ok (b :: r)
  end.
(** lines 308-330 *)
Definition encode_tag (vendor : str) (items : list (str * str)) (pics : list (picture * pic_info)) : res flac_error (list block) :=
  let? c := (match items with [] => Ok [] | _ => let? b := new_comments vendor items in Ok [b] end) in
  let? p := picture_blocks pics in Ok (c ++ p).
Definition block_len (b : block) : N := 4 + lenN (b_content b).
(** lines 163-177: the last block gets the flag *)
Fixpoint write_blocks (l : list block) : res flac_error bytes :=
  match l with
  | [] => Ok []
  | b :: l' => let? x := block_write (mkBlock (b_ty b) (match l' with [] => true | _ => b_last b end) (b_content b)) in
               let? r := write_blocks l' in Ok (x ++ r)
  end.
(** [padding] is [WriteOptions::preferred_padding] *)
Definition flac_write (data : bytes) (vendor : str) (items : list (str * str)) (pics : list (picture * pic_info)) (padding : option N)
  : res flac_error (list fop) :=
  match find_id3v2 data 0 false None with
  | Ok (_, _, p) =>
      let? (info, e) := verify_flac data p in
      let? (w, stop) := write_loop (S (length data)) data e (b_last info) (mkW [mkBlock STREAMINFO false (b_content info)] vendor false false) in
      let start := p + 4 in
      match items, pics, w_remove w with
      | [], [], false => Ok []
      | _, _, _ =>
          let? m := encode_tag (w_vendor w) items pics in
          let bs := w_blocks w ++ m in
          let bs := (match padding, w_padding w with
                     | Some pref, false =>
                         let available := stop - start - sumN (map block_len bs) - 4 in
                         bs ++ [new_padding (N.min (N.max available pref) MAX_CONTENT)]
                     | _, _ => bs
                     end) in
          let? new := write_blocks bs in
          match replace_range data start stop new with Ok log => Ok log | Err _ => Err FlMove | Panic => Panic end
      end
  | Err _ => Err FlFind
  | Panic => Panic
  end.

(** ** mod.rs 58-102, for a file without ID3v2 tag *)
Definition flac_save (data : bytes) (tag : option vc) (pics : list (picture * pic_info)) (padding : option N) : res flac_error (list fop) :=
  match tag with
  | Some t => flac_write data (vc_vendor t) (vc_items t) (vc_pics t ++ pics) padding
  | None => match pics with [] => Ok [] | _ => flac_write data [] [] pics padding end
  end.
(** lines 110-140: the tag a TaggedFile gets *)
Definition tagged_vc (f : flac_file) : option vc :=
  match ff_tag f, ff_pics f with
  | Some t, ps => Some (mkVc (vc_vendor t) (vc_items t) (vc_pics t ++ ps))
  | None, [] => None
  | None, ps => Some (mkVc [] [] ps)
  end.
