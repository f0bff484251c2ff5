(** Model of lofty/src/iff/chunk.rs ([valid_fourcc], [Chunks], [Chunk]), iff/wav/read.rs, iff/wav/properties.rs,
    iff/wav/tag/{mod,read,write}.rs and id3/v2/write/chunk_file.rs.
    Simplified: a reader is the bytes still to be read and the position (seeking back only undoes a read); sizes of
    allocations are not limited; the ID3v2 parser and the joining of duplicate ID3v2 tags are parameters of reading, the
    encoded ID3v2 tag is a parameter of writing; loops carry fuel, running out of it is [Panic]. *)
From Verif Require Export Base Str TextModel Mode FileModel.
From Verif Require MathModel.

Inductive iff_error := IEof | ISize | IUnknown | IText | IFake | INeed | IMessage (n : N) | IMissingComm | ITooMuch | IId3.

(** chunk.rs 16-32 *)
Fixpoint fourcc_from (spaces : bool) (l : bytes) : bool :=
  match l with
  | [] => true
  | b :: l => let spaces := spaces || (b =? 0x20) in (0x20 <=? b) && (b <=? 0x7E) && (negb spaces || (b =? 0x20)) && fourcc_from spaces l
  end.
Definition valid_fourcc (l : bytes) : bool := fourcc_from false l.

(** chunk.rs 34-43 *)
Record chunks := mkCh { c_total : N; c_rem : N; c_size : N; c_crem : N; c_lock : option (N * N); c_rest : bytes; c_pos : N }.
(** 47-57 *)
Definition chunks_new (r : bytes) (pos size : N) : chunks := mkCh size size 0 0 None r pos.
(** 59-61 *)
Definition c_position (s : chunks) : N := c_total s - c_rem s.
Definition iord {A} (x : option A) : res iff_error A := match x with Some a => Ok a | None => Err IEof end.

(** 194-229 *)
Definition correct_position (s : chunks) (size : N) : res iff_error chunks :=
  let '(mkCh total rem csize crem lk rest pos) := s in
  if N.even size || (rem <? 1) then Ok s else
  let? (b, r) := iord (read_u8 rest) in
  let skipped := mkCh total (rem - 1) csize crem lk r (pos + 1) in
  if negb (b =? 0) && (4 <? rem) then
    let? (f, _) := iord (read_exact 3 r) in
    Ok (if valid_fourcc (b :: f) then s else skipped)
  else Ok skipped.

(** 132-148 *)
Definition skip (s : chunks) : res iff_error chunks :=
  let '(mkCh total rem csize crem lk rest pos) := s in
  let? s := correct_position (if 0 <? crem then mkCh total (rem - crem) csize 0 lk (dropN crem rest) (pos + crem) else s) csize in
  let '(mkCh total rem _ crem lk rest pos) := s in Ok (mkCh total rem 0 crem lk rest pos).

(** The parts of a [Chunk] (233-240) that are not in [chunks]. *)
Record chunk := mkChunk { k_fourcc : bytes; k_size : N; k_start : N }.
(** 70-129. [be]: the byte order. *)
Definition dec32 (be : bool) (b : bytes) : N := if be then be_dec b else le_dec b.
Definition enc32 (be : bool) (n : N) : bytes := if be then be_enc 4 n else le_enc 4 n.
Definition next (be : bool) (m : pmode) (s : chunks) : res iff_error (option chunk * chunks) :=
  let? s := skip s in
  let '(mkCh total rem csize crem lk rest pos) := s in
  if rem <? 8 then Ok (None, s) else
  let start := total - rem in
  let? (id, r) := iord (read_exact 4 rest) in
  if negb (valid_fourcc id) then
    if is_strict m then Err ISize else Ok (None, mkCh total 0 csize crem lk r (pos + 4))
  else
  let? (b, r) := iord (read_exact 4 r) in
  let size := dec32 be b in
  if rem <? size then
    if is_strict m then Err ISize else Ok (None, mkCh total 0 csize crem lk r (pos + 8))
  else Ok (Some (mkChunk id size start), mkCh total (rem - 8) size size lk r (pos + 8)).

(** 309-316 with 273-280: [read_exact] on a chunk. *)
Definition chunk_read (n : N) (s : chunks) : res iff_error (bytes * chunks) :=
  let '(mkCh total rem csize crem lk rest pos) := s in
  if crem <? n then Err IEof else
  let? (b, r) := iord (read_exact n rest) in
  Ok (b, mkCh total (rem - n) csize (crem - n) lk r (pos + n)).

(** 156-168 *)
Definition lock (s : chunks) : res iff_error chunks :=
  let '(mkCh total rem csize crem lk rest pos) := s in
  match lk with
  | Some _ => Panic
  | None => Ok (mkCh total crem 0 0 (Some (rem - crem, csize)) rest pos)
  end.
(** 174-192 *)
Definition unlock (s : chunks) : res iff_error chunks :=
  let '(mkCh total rem csize crem lk rest pos) := s in
  match lk with
  | None => Ok s
  | Some (outer, parent) =>
      let? s := skip (mkCh total rem csize crem None rest pos) in
      let '(mkCh total rem _ _ lk rest pos) := s in
      correct_position (mkCh total outer 0 0 lk (dropN rem rest) (pos + rem)) parent
  end.

(** ** RIFF INFO lists *)
Definition riff := list (str * str).
(** wav/tag/read.rs 12-49; the items read so far are an accumulator. *)
Fixpoint parse_riff_info (fuel : nat) (m : pmode) (s : chunks) (items : riff) : res iff_error (riff * chunks) :=
  match fuel with
  | O => Panic
  | S fuel =>
      let? (c, s) := next false m s in
      match c with
      | None => Ok (items, s)
      | Some c =>
          let? (content, s) := chunk_read (k_size c) s in
          match utf8_decode content with
          | Ok v => parse_riff_info fuel m s (items ++ [(k_fourcc c, v)])
          | Err _ => if is_strict m then Err IText else parse_riff_info fuel m s items
          | Panic => Panic
          end
      end
  end.

(** wav/tag/mod.rs 84-131 *)
Definition riff_get (t : riff) (key : str) : option str :=
  match find (fun i => list_eqb (fst i) key) t with Some (_, v) => Some v | None => None end.
Fixpoint riff_remove_first (key : str) (t : riff) : option (str * riff) :=
  match t with
  | [] => None
  | (k, v) :: t =>
      if eq_ignore_case k key then Some (v, t)
      else match riff_remove_first key t with Some (x, t') => Some (x, (k, v) :: t') | None => None end
  end.
Definition riff_insert (t : riff) (key value : str) : riff :=
  if (lenN (utf8_enc key) =? 4) && valid_fourcc (utf8_enc key) then
    (match riff_remove_first key t with Some (_, t') => t' | None => t end) ++ [(key, value)]
  else t.
Definition riff_remove (t : riff) (key : str) : riff * option str :=
  match riff_remove_first key t with Some (v, t') => (t', Some v) | None => (t, None) end.

(** wav/tag/write.rs 148-189 *)
Definition riff_item_bytes (i : str * str) : bytes :=
  match snd i with
  | [] => []
  | _ =>
      let v := utf8_enc (snd i) in
      utf8_enc (fst i) ++ le_enc 4 ((lenN v + 1) mod 2 ^ 32) ++ v ++ (if N.even (lenN v + 1) then [0] else [0; 0])
  end.
Definition create_riff_info (t : riff) : res iff_error bytes :=
  match t with
  | [] => Ok []
  | _ =>
      let body := $"INFO" ++ flat_map riff_item_bytes t in
      if U32_MAX <? lenN body then Err ITooMuch else Ok ($"LIST" ++ le_enc 4 (lenN body) ++ body)
  end.

(** wav/read.rs 16-30, [verify_wav]: the length field and the rest of the reader *)
Definition verify_wav (data : bytes) : res iff_error (N * bytes) :=
  let? (id, r) := iord (read_exact 12 data) in
  if list_eqb (takeN 4 id) ($"RIFF") && list_eqb (dropN 8 id) ($"WAVE") then Ok (le_dec (takeN 4 (dropN 4 id)), r) else Err IUnknown.

(** write.rs 113-146: the position of the reader after the list type, and the size of the list *)
Fixpoint find_info_list (fuel : nat) (m : pmode) (s : chunks) : res iff_error (option (N * N)) :=
  match fuel with
  | O => Panic
  | S fuel =>
      let? (c, s) := next false m s in
      match c with
      | None => Ok None
      | Some c =>
          if negb (list_eqb (k_fourcc c) ($"LIST")) then find_info_list fuel m s else
          let? (ty, s) := chunk_read 4 s in
          if list_eqb ty ($"INFO") then Ok (Some (c_pos s, k_size c)) else find_info_list fuel m s
      end
  end.

(** [Vec::splice] over [a..b]: panics if the range is not within the vector. *)
Definition splice {E} (a b : N) (new v : bytes) : res E bytes :=
  if (b <? a) || (lenN v <? b) then Panic else Ok (takeN a v ++ new ++ dropN b v).
Definition rewrite_all (new : bytes) : list fop := [OpTrunc 0; OpWrite 0 new].
(** write.rs 20-111. u32 additions and subtractions panic when they overflow. *)
Definition write_riff_info (m : pmode) (data : bytes) (t : riff) : res iff_error (list fop) :=
  let? (slen, _) := verify_wav data in
  let? info := create_riff_info t in
  if U32_MAX <? slen + 8 then Panic else
  if lenN data <? slen + 8 then Err ISize else
  if slen <? 4 then Panic else
  let? found := find_info_list (S (length data)) m (chunks_new (dropN 12 data) 12 (slen - 4)) in
  match found with
  | None =>
      let len := lenN info + slen in
      if U32_MAX <? len then Err ITooMuch else
      let? v := splice (slen + 8) (slen + 8) info data in
      Ok (rewrite_all (write_at 4 (le_enc 4 len) v))
  | Some (pos, size) =>
      let start := pos - 12 in
      if U32_MAX <? 8 + size then Panic else
      let stop := start + (8 + size) in
      if slen <? 8 + size then Panic else
      let len := lenN info + (slen - (8 + size)) in
      if U32_MAX <? len then Err ITooMuch else
      let? v := splice start stop info data in
      let? v := splice 4 8 (le_enc 4 len) v in
      Ok (rewrite_all v)
  end.

(** ** WAV properties: wav/properties.rs 113-283 *)
Inductive wav_format := WPcm | WFloat | WOther (tag : N).
Record wav_props := mkWp { wp_format : wav_format; wp_duration : N; wp_overall : N; wp_audio : N; wp_rate : N; wp_depth : N; wp_channels : N; wp_mask : option N }.
Definition div64r (a b : N) : res iff_error N := match MathModel.div_round U64_MAX a b with Ok x => Ok x | _ => Panic end.
Definition as_u8 (n : N) := n mod 2 ^ 8.
Definition as_u32 (n : N) := n mod 2 ^ 32.
Record fmt := mkFmt { m_tag : N; m_channels : N; m_rate : N; m_byterate : N; m_align : N; m_bits : N; m_ext : option (N * N) }.
(** 130-181 *)
Definition read_fmt (b : bytes) : res iff_error fmt :=
  let len := lenN b in
  let? (tag, r) := iord (read_le 2 b) in
  let? (channels, r) := iord (read_le 2 r) in
  let? (rate, r) := iord (read_le 4 r) in
  let? (byterate, r) := iord (read_le 4 r) in
  let? (align, r) := iord (read_le 2 r) in
  let? (bits, r) := iord (read_le 2 r) in
  if tag =? 0xFFFE then
    if len <? 40 then Err (IMessage 1) else
    let? (_cb, r) := iord (read_le 2 r) in
    let? (valid, r) := iord (read_le 2 r) in
    let? (mask, r) := iord (read_le 4 r) in
    let? (tag, _) := iord (read_le 2 r) in
    Ok (mkFmt tag (as_u8 channels) rate byterate align bits (Some (valid, mask)))
  else Ok (mkFmt tag (as_u8 channels) rate byterate align bits None).
(** 183-283 *)
Definition wav_properties (fmt : bytes) (total stream file : N) : res iff_error wav_props :=
  if lenN fmt <? 16 then Err (IMessage 2) else
  if stream =? 0 then Err (IMessage 3) else
  let? f := read_fmt fmt in
  if m_channels f =? 0 then Err (IMessage 4) else
  if negb (m_bits f mod 8 =? 0) then Err (IMessage 5) else
  let bytes_per_sample := m_align f / m_channels f in
  let by_bits := if 0 <? m_bits f then as_u8 (m_bits f) else as_u8 (N.min (bytes_per_sample * 8) U16_MAX) in
  let depth := match m_ext f with Some (valid, _) => if 0 <? valid then as_u8 valid else by_bits | None => by_bits end in
  let pcm := (m_tag f =? 1) || (m_tag f =? 3) in
  if negb pcm && (total =? 0) then Err (IMessage 6) else
  let total := if (0 <? m_bits f) && ((total =? 0) || pcm) then stream / (m_channels f * (m_bits f / 8)) else total in
  let? audio := (if 0 <? m_byterate f then let? x := div64r (m_byterate f * 8) 1000 in Ok (as_u32 x) else Ok 0) in
  let? (duration, overall, audio) :=
    (if (0 <? m_rate f) && (0 <? total) then
       let? length := div64r (total * 1000) (m_rate f) in
       if 0 <? length then
         if U64_MAX <? file * 8 then Panic else
         let? overall := div64r (file * 8) length in
         let? audio := (if audio =? 0 then let? x := div64r (stream * 8) length in Ok (as_u32 x) else Ok audio) in
         Ok (length, as_u32 overall, audio)
       else Ok (length, 0, audio)
     else if (0 <? stream) && (0 <? m_byterate f) then
       let? length := div64r (stream * 1000) (m_byterate f) in
       if 0 <? length then
         if U64_MAX <? file * 8 then Panic else
         let? overall := div64r (file * 8) length in Ok (length, as_u32 overall, audio)
       else Ok (length, 0, audio)
     else Ok (0, 0, audio)) in
  Ok (mkWp (if m_tag f =? 1 then WPcm else if m_tag f =? 3 then WFloat else WOther (m_tag f)) duration overall audio (m_rate f) depth (m_channels f)
        (match m_ext f with Some (_, mask) => Some mask | None => None end)).

(** ** WAV files: wav/read.rs 32-134. [T], [id3], [join]: the ID3v2 tag, its parser and the insertion of the frames
    of a second one into the first. *)
Record wav_acc (T : Type) := mkWa { wa_stream : N; wa_total : N; wa_fmt : bytes; wa_info : riff; wa_id3 : option T }.
Arguments mkWa {T}. Arguments wa_stream {T}. Arguments wa_total {T}. Arguments wa_fmt {T}. Arguments wa_info {T}. Arguments wa_id3 {T}.
(** chunk.rs 283-306 *)
Definition id3_chunk {T} (id3 : bytes -> res iff_error T) (m : pmode) (size : N) (s : chunks) : res iff_error (option T * chunks) :=
  let? (content, s) := chunk_read size s in
  if lenN content <? 10 then if is_strict m then Err IFake else Ok (None, s)
  else let? t := id3 content in Ok (Some t, s).
Definition wav_chunk {T} (id3 : bytes -> res iff_error T) (join : T -> T -> T) (fuel : nat) (m : pmode) (tags props : bool) (file_len : N) (c : chunk) (s : chunks)
  (a : wav_acc T) : res iff_error (wav_acc T * chunks) :=
  let is x := list_eqb (k_fourcc c) x in
  if is ($"fmt ") && props && (lenN (wa_fmt a) =? 0) then
    let? (b, s) := chunk_read (k_size c) s in Ok (mkWa (wa_stream a) (wa_total a) b (wa_info a) (wa_id3 a), s)
  else if is ($"fact") && props && (wa_total a =? 0) then
    let? (b, s) := chunk_read 4 s in Ok (mkWa (wa_stream a) (le_dec b) (wa_fmt a) (wa_info a) (wa_id3 a), s)
  else if is ($"data") && props && (wa_stream a =? 0) then
    Ok (mkWa (k_size c) (wa_total a) (wa_fmt a) (wa_info a) (wa_id3 a), s)
  else if is ($"LIST") then
    if k_size c <? 4 then Err ISize else
    let? (ty, s) := chunk_read 4 s in
    if negb (list_eqb ty ($"INFO")) || negb tags then Ok (a, s) else
    if file_len <? c_position s + (k_size c - 4) then Err ISize else
    let? s := lock s in
    let? (items, s) := parse_riff_info fuel m s (wa_info a) in
    let? s := unlock s in
    Ok (mkWa (wa_stream a) (wa_total a) (wa_fmt a) items (wa_id3 a), s)
  else if (is ($"ID3 ") || is ($"id3 ")) && tags then
    let? (t, s) := id3_chunk id3 m (k_size c) s in
    match t with
    | None => Ok (a, s)
    | Some t => Ok (mkWa (wa_stream a) (wa_total a) (wa_fmt a) (wa_info a) (Some (match wa_id3 a with Some old => join old t | None => t end)), s)
    end
  else Ok (a, s).
Fixpoint wav_loop {T} (id3 : bytes -> res iff_error T) (join : T -> T -> T) (fuel0 fuel : nat) (m : pmode) (tags props : bool) (file_len : N) (s : chunks)
  (a : wav_acc T) : res iff_error (wav_acc T * chunks) :=
  match fuel with
  | O => Panic
  | S fuel =>
      let? (c, s) := next false m s in
      match c with
      | None => Ok (a, s)
      | Some c => let? (a, s) := wav_chunk id3 join fuel0 m tags props file_len c s a in wav_loop id3 join fuel0 fuel m tags props file_len s a
      end
  end.
Record wav_file (T : Type) := mkWf { wf_props : option wav_props; wf_info : option riff; wf_id3 : option T }.
Arguments mkWf {T}. Arguments wf_props {T}. Arguments wf_info {T}. Arguments wf_id3 {T}.
Definition wav_read {T} (id3 : bytes -> res iff_error T) (join : T -> T -> T) (m : pmode) (tags props : bool) (data : bytes) : res iff_error (wav_file T) :=
  let? (_, r) := verify_wav data in
  let file_len := lenN data - 12 in
  let fuel := S (length data) in
  let? (a, s) := wav_loop id3 join fuel fuel m tags props file_len (chunks_new r 12 file_len) (mkWa 0 0 [] [] None) in
  let? p := (if props then let? p := wav_properties (wa_fmt a) (wa_total a) (wa_stream a) (c_pos s) in Ok (Some p) else Ok None) in
  Ok (mkWf p (match wa_info a with [] => None | i => Some i end) (wa_id3 a)).

(** ** ID3v2 tags in WAV and AIFF files: id3/v2/write/chunk_file.rs *)
(** 28-51 *)
Definition id3v2_chunk (be upper : bool) (tag : bytes) : bytes :=
  (if upper then $"ID3 " else $"id3 ") ++ enc32 be (lenN tag mod 2 ^ 32) ++ tag ++ (if N.even (lenN tag) then [] else [0]).
(** 195-264: the loop over the chunks, then the context *)
Fixpoint find_id3_chunk (fuel : nat) (be : bool) (m : pmode) (s : chunks) : res iff_error (option (N * N)) :=
  match fuel with
  | O => Panic
  | S fuel =>
      let? (c, s) := next be m s in
      match c with
      | None => Ok None
      | Some c =>
          if list_eqb (k_fourcc c) ($"ID3 ") || list_eqb (k_fourcc c) ($"id3 ") then
            let? s := skip s in Ok (Some (k_start c + 12, c_position s + 12))
          else find_id3_chunk fuel be m s
      end
  end.
Definition id3_context (be : bool) (m : pmode) (data : bytes) : res iff_error (N * option (N * N)) :=
  let? (c, _) := next be m (chunks_new data 0 (lenN data)) in
  match c with
  | None => Err IUnknown
  | Some c =>
      let stream := k_size c + 8 in
      if lenN data <? stream then Err ISize else
      let? r := find_id3_chunk (S (length data)) be m (chunks_new (dropN 12 data) 12 (stream - 8)) in
      Ok (stream, r)
  end.
(** [(x as u32) - 8] *)
Definition size_field (be : bool) (x : N) : res iff_error bytes := if as_u32 x <? 8 then Panic else Ok (enc32 be (as_u32 x - 8)).
Definition sub64 (a b : N) : res iff_error N := if a <? b then Panic else Ok (a - b).
(** 53-186. [be]: AIFF (big endian); [padding]: whether [preferred_padding] is set. *)
Definition write_id3_chunk (be : bool) (m : pmode) (upper padding : bool) (data tag : bytes) : res iff_error (list fop) :=
  let tag_size := (match tag with [] => 0 | _ => lenN tag + 8 end) + (if N.even (lenN tag) then 0 else 1) in
  let? (stream, existing) := id3_context be m data in
  let chunk := id3v2_chunk be upper tag in
  let whole :=
    let? v := splice stream stream (match tag with [] => [] | _ => chunk end) data in
    let? (stream, v) := (match existing with
      | None => Ok (stream, v)
      | Some (a, b) => let? stream := sub64 stream (b - a) in let? v := splice a b [] v in Ok (stream, v)
      end) in
    let? f := size_field be (stream + tag_size) in
    Ok (rewrite_all (write_at 4 f v)) in
  match existing with
  | Some (a, b) =>
      let old := b - a in
      if (b =? stream) && (lenN data =? stream) then
        let? (len, ops) := (match tag with
          | [] => let? len := sub64 stream old in Ok (len, [OpTrunc a])
          | _ =>
              if tag_size <? old then let? len := sub64 stream (old - tag_size) in Ok (len, [OpWrite a chunk; OpTrunc (b - (old - tag_size))])
              else let? len := sub64 stream (tag_size - old) in Ok (len, [OpWrite a chunk])
          end) in
        let? f := size_field be len in
        Ok (ops ++ [OpWrite 4 f])
      else if negb be && padding then
        match tag with
        | [] => Ok [OpWrite a ($"JUNK")]
        | _ =>
            let? room := sub64 old 8 in
            if tag_size <=? room then Ok [OpWrite a chunk; OpWrite (a + lenN chunk) ($"JUNK" ++ enc32 be (as_u32 (old - tag_size)))]
            else whole
        end
      else whole
  | None => match tag with [] => Ok [] | _ => whole end
  end.
