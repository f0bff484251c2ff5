(** Model of the ogg_pager crate. *)
From Verif Require Import Base.

(** crc.rs 2-67, CRC_LOOKUP_ARRAY (generated from the source text). *)
Definition CRC_LOOKUP_ARRAY : list N := [
  0x00000000; 0x04C11DB7; 0x09823B6E; 0x0D4326D9; 0x130476DC; 0x17C56B6B; 0x1A864DB2; 0x1E475005;
  0x2608EDB8; 0x22C9F00F; 0x2F8AD6D6; 0x2B4BCB61; 0x350C9B64; 0x31CD86D3; 0x3C8EA00A; 0x384FBDBD;
  0x4C11DB70; 0x48D0C6C7; 0x4593E01E; 0x4152FDA9; 0x5F15ADAC; 0x5BD4B01B; 0x569796C2; 0x52568B75;
  0x6A1936C8; 0x6ED82B7F; 0x639B0DA6; 0x675A1011; 0x791D4014; 0x7DDC5DA3; 0x709F7B7A; 0x745E66CD;
  0x9823B6E0; 0x9CE2AB57; 0x91A18D8E; 0x95609039; 0x8B27C03C; 0x8FE6DD8B; 0x82A5FB52; 0x8664E6E5;
  0xBE2B5B58; 0xBAEA46EF; 0xB7A96036; 0xB3687D81; 0xAD2F2D84; 0xA9EE3033; 0xA4AD16EA; 0xA06C0B5D;
  0xD4326D90; 0xD0F37027; 0xDDB056FE; 0xD9714B49; 0xC7361B4C; 0xC3F706FB; 0xCEB42022; 0xCA753D95;
  0xF23A8028; 0xF6FB9D9F; 0xFBB8BB46; 0xFF79A6F1; 0xE13EF6F4; 0xE5FFEB43; 0xE8BCCD9A; 0xEC7DD02D;
  0x34867077; 0x30476DC0; 0x3D044B19; 0x39C556AE; 0x278206AB; 0x23431B1C; 0x2E003DC5; 0x2AC12072;
  0x128E9DCF; 0x164F8078; 0x1B0CA6A1; 0x1FCDBB16; 0x018AEB13; 0x054BF6A4; 0x0808D07D; 0x0CC9CDCA;
  0x7897AB07; 0x7C56B6B0; 0x71159069; 0x75D48DDE; 0x6B93DDDB; 0x6F52C06C; 0x6211E6B5; 0x66D0FB02;
  0x5E9F46BF; 0x5A5E5B08; 0x571D7DD1; 0x53DC6066; 0x4D9B3063; 0x495A2DD4; 0x44190B0D; 0x40D816BA;
  0xACA5C697; 0xA864DB20; 0xA527FDF9; 0xA1E6E04E; 0xBFA1B04B; 0xBB60ADFC; 0xB6238B25; 0xB2E29692;
  0x8AAD2B2F; 0x8E6C3698; 0x832F1041; 0x87EE0DF6; 0x99A95DF3; 0x9D684044; 0x902B669D; 0x94EA7B2A;
  0xE0B41DE7; 0xE4750050; 0xE9362689; 0xEDF73B3E; 0xF3B06B3B; 0xF771768C; 0xFA325055; 0xFEF34DE2;
  0xC6BCF05F; 0xC27DEDE8; 0xCF3ECB31; 0xCBFFD686; 0xD5B88683; 0xD1799B34; 0xDC3ABDED; 0xD8FBA05A;
  0x690CE0EE; 0x6DCDFD59; 0x608EDB80; 0x644FC637; 0x7A089632; 0x7EC98B85; 0x738AAD5C; 0x774BB0EB;
  0x4F040D56; 0x4BC510E1; 0x46863638; 0x42472B8F; 0x5C007B8A; 0x58C1663D; 0x558240E4; 0x51435D53;
  0x251D3B9E; 0x21DC2629; 0x2C9F00F0; 0x285E1D47; 0x36194D42; 0x32D850F5; 0x3F9B762C; 0x3B5A6B9B;
  0x0315D626; 0x07D4CB91; 0x0A97ED48; 0x0E56F0FF; 0x1011A0FA; 0x14D0BD4D; 0x19939B94; 0x1D528623;
  0xF12F560E; 0xF5EE4BB9; 0xF8AD6D60; 0xFC6C70D7; 0xE22B20D2; 0xE6EA3D65; 0xEBA91BBC; 0xEF68060B;
  0xD727BBB6; 0xD3E6A601; 0xDEA580D8; 0xDA649D6F; 0xC423CD6A; 0xC0E2D0DD; 0xCDA1F604; 0xC960EBB3;
  0xBD3E8D7E; 0xB9FF90C9; 0xB4BCB610; 0xB07DABA7; 0xAE3AFBA2; 0xAAFBE615; 0xA7B8C0CC; 0xA379DD7B;
  0x9B3660C6; 0x9FF77D71; 0x92B45BA8; 0x9675461F; 0x8832161A; 0x8CF30BAD; 0x81B02D74; 0x857130C3;
  0x5D8A9099; 0x594B8D2E; 0x5408ABF7; 0x50C9B640; 0x4E8EE645; 0x4A4FFBF2; 0x470CDD2B; 0x43CDC09C;
  0x7B827D21; 0x7F436096; 0x7200464F; 0x76C15BF8; 0x68860BFD; 0x6C47164A; 0x61043093; 0x65C52D24;
  0x119B4BE9; 0x155A565E; 0x18197087; 0x1CD86D30; 0x029F3D35; 0x065E2082; 0x0B1D065B; 0x0FDC1BEC;
  0x3793A651; 0x3352BBE6; 0x3E119D3F; 0x3AD08088; 0x2497D08D; 0x2056CD3A; 0x2D15EBE3; 0x29D4F654;
  0xC5A92679; 0xC1683BCE; 0xCC2B1D17; 0xC8EA00A0; 0xD6AD50A5; 0xD26C4D12; 0xDF2F6BCB; 0xDBEE767C;
  0xE3A1CBC1; 0xE760D676; 0xEA23F0AF; 0xEEE2ED18; 0xF0A5BD1D; 0xF464A0AA; 0xF9278673; 0xFDE69BC4;
  0x89B8FD09; 0x8D79E0BE; 0x803AC667; 0x84FBDBD0; 0x9ABC8BD5; 0x9E7D9662; 0x933EB0BB; 0x97FFAD0C;
  0xAFB010B1; 0xAB710D06; 0xA6322BDF; 0xA2F33668; 0xBCB4666D; 0xB8757BDA; 0xB5365D03; 0xB1F740B4].

(** crc.rs 71-79, crc32. Table indexing out of bounds would panic: [None]. *)
Definition crc_step (crc p : N) : option N :=
  match nth_error CRC_LOOKUP_ARRAY (N.to_nat (N.lxor p (N.shiftr crc 24))) with
  | Some t => Some (N.lxor ((N.shiftl crc 8) mod 2 ^ 32) t)
  | None => None
  end.
Fixpoint crc_loop (crc : N) (l : bytes) : option N :=
  match l with
  | [] => Some crc
  | p :: l' => match crc_step crc p with Some c => crc_loop c l' | None => None end
  end.
Definition crc32 (page : bytes) : option N := crc_loop 0 page.

(** error.rs, PageError. *)
Inductive page_error := MissingMagic | InvalidVersion | BadSegmentCount | NotEnoughData | PIo.

(** header.rs 12-24 PageHeader and lib.rs 33-38 Page, in one record. *)
Record page := mkPage {
  pg_start : N; pg_flag : N; pg_abgp : N; pg_serial : N; pg_seq : N;
  pg_segs : bytes; pg_cksum : N; pg_content : bytes; pg_end : N }.

Definition OggS : bytes := [79; 103; 103; 83].

(** lib.rs 56-74, Page::as_bytes. *)
Definition as_bytes (p : page) : bytes :=
  OggS ++ [0] ++ [pg_flag p] ++ le_enc 8 (pg_abgp p) ++ le_enc 4 (pg_serial p) ++ le_enc 4 (pg_seq p)
  ++ le_enc 4 (pg_cksum p) ++ [lenN (pg_segs p) mod 256] ++ pg_segs p ++ pg_content p.

(** header.rs 54-101, PageHeader::read. The reader is (position, remaining bytes).
    The content and end of the result are placeholders filled in by [page_read]. *)
Definition io {A} (o : option A) : res page_error A := match o with Some a => Ok a | None => Err PIo end.
Definition header_read (pos : N) (r : bytes) : res page_error (page * bytes) :=
  let? (sig, r1) := io (read_exact 4 r) in
  if negb (list_eqb sig OggS) then Err MissingMagic else
  let? (version, r2) := io (read_u8 r1) in
  if negb (version =? 0) then Err InvalidVersion else
  let? (flag, r3) := io (read_u8 r2) in
  let? (abgp, r4) := io (read_le 8 r3) in
  let? (serial, r5) := io (read_le 4 r4) in
  let? (seq, r6) := io (read_le 4 r5) in
  let? (cksum, r7) := io (read_le 4 r6) in
  let? (segments, r8) := io (read_u8 r7) in
  if segments <? 1 then Err BadSegmentCount else
  let? (table, r9) := io (read_exact segments r8) in
  Ok (mkPage pos flag abgp serial seq table cksum [] 0, r9).

(** header.rs 104-106. *)
Definition content_size (segs : bytes) : N := sumN segs.

(** lib.rs 82-98, Page::read. *)
Definition page_read (pos : N) (r : bytes) : res page_error (page * bytes) :=
  let? (h, r1) := header_read pos r in
  let? (content, r2) := io (read_exact (content_size (pg_segs h)) r1) in
  Ok (mkPage (pg_start h) (pg_flag h) (pg_abgp h) (pg_serial h) (pg_seq h) (pg_segs h) (pg_cksum h)
        content (pos + (lenN r - lenN r2)), r2).

(** lib.rs 101-105, gen_crc. *)
Definition set_cksum (c : N) (p : page) : page :=
  mkPage (pg_start p) (pg_flag p) (pg_abgp p) (pg_serial p) (pg_seq p) (pg_segs p) c (pg_content p) (pg_end p).
Definition gen_crc (p : page) : res page_error page :=
  match crc32 (as_bytes (set_cksum 0 p)) with
  | Some c => Ok (set_cksum c p)
  | None => Panic
  end.

(** lib.rs 17-29. *)
Definition CONTINUED_PACKET : N := 1.
Definition FIRST_PAGE : N := 2.
Definition LAST_PAGE : N := 4.
Definition MAX_SEGS : N := 32.
Definition MAX_CONTENT : N := MAX_SEGS * 255.

(** ** paginate.rs *)

(** paginate.rs 9-40, PaginateContext. *)
Record pctx := mkCtx {
  c_pages : list page; c_abgp : N; c_serial : N; c_hflags : N;
  c_first : bool; c_fresh : bool; c_finished : bool;
  c_pos : N; c_idx : N; c_remaining : N; c_curlen : N; c_lastseg : option N }.

Definition ctx_new (abgp serial hflags : N) : pctx :=
  mkCtx [] abgp serial hflags true true false 0 0 MAX_CONTENT 0 None.

(** paginate.rs 42-48, fresh_packet. *)
Definition fresh_packet (c : pctx) (packet : bytes) : pctx :=
  mkCtx (c_pages c) (c_abgp c) (c_serial c) (c_hflags c) (c_first c) true (c_finished c)
        0 (c_idx c) (c_remaining c) (lenN packet) (Some (lenN packet mod 255)).

(** paginate.rs 50-112, flush_page (the debug assertions and the [expect] are panics). *)
Definition flush_page (c : pctx) (content : bytes) : res page_error pctx :=
  let flag := if c_first c && negb (N.land (c_hflags c) FIRST_PAGE =? 0) then FIRST_PAGE
              else if negb (c_fresh c) then CONTINUED_PACKET else 0 in
  let start := c_pos c in
  let pos := c_pos c + lenN content in
  let full := lenN content / 255 in
  if c_curlen c <? pos then Panic else
  let abgp := if c_finished c then c_abgp c else 2 ^ 64 - 1 in
  if MAX_SEGS <? full then Panic else
  let segs0 := repeat 255 (N.to_nat full) in
  let? segs := (if negb (full =? MAX_SEGS)
                then match c_lastseg c with Some s => Ok (segs0 ++ [s]) | None => Panic end
                else Ok segs0) in
  let p := mkPage start flag abgp (c_serial c) (c_idx c mod 2 ^ 32) segs 0 content pos in
  Ok (mkCtx (c_pages c ++ [p]) (c_abgp c) (c_serial c) (c_hflags c) (c_first c) (c_fresh c) false
            pos (c_idx c + 1) MAX_CONTENT (c_curlen c) (c_lastseg c)).

Definition set_finished (c : pctx) : pctx :=
  mkCtx (c_pages c) (c_abgp c) (c_serial c) (c_hflags c) (c_first c) (c_fresh c) true
        (c_pos c) (c_idx c) (c_remaining c) (c_curlen c) (c_lastseg c).
Definition set_remaining (n : N) (c : pctx) : pctx :=
  mkCtx (c_pages c) (c_abgp c) (c_serial c) (c_hflags c) (c_first c) (c_fresh c) (c_finished c)
        (c_pos c) (c_idx c) n (c_curlen c) (c_lastseg c).
Definition clear_first_fresh (c : pctx) : pctx :=
  mkCtx (c_pages c) (c_abgp c) (c_serial c) (c_hflags c) false false (c_finished c)
        (c_pos c) (c_idx c) (c_remaining c) (c_curlen c) (c_lastseg c).

(** paginate.rs 162-186: the loop of paginate_packet. [content] is page_content. *)
Fixpoint paginate_loop (fuel : nat) (c : pctx) (content packet : bytes) : res page_error (pctx * bytes) :=
  match fuel with
  | O => Panic
  | S fuel' =>
      match packet with
      | [] => Ok (c, content)
      | _ =>
          let n := N.min (c_remaining c) (lenN packet) in
          let content := content ++ takeN n packet in
          let c := set_remaining (c_remaining c - n) c in
          let packet := dropN n packet in
          let is_empty := match packet with [] => true | _ => false end in
          let c := if (n <=? MAX_CONTENT) && is_empty then set_finished c else c in
          let? (c, content) :=
            (if (c_remaining c =? 0) || is_empty
             then let? c' := flush_page c content in Ok (c', [])
             else Ok (c, content)) in
          paginate_loop fuel' (clear_first_fresh c) content packet
      end
  end.

(** paginate.rs 159-212, paginate_packet. *)
Definition paginate_packet (c : pctx) (packet : bytes) : res page_error pctx :=
  let? (c, content) := paginate_loop (S (length packet)) c [] packet in
  let? c := (match content with [] => Ok c | _ => flush_page c content end) in
  if negb (c_curlen c =? 0) && (c_curlen c mod (255 * MAX_SEGS) =? 0)
  then flush_page (set_finished c) []
  else Ok c.

Fixpoint paginate_all (c : pctx) (packets : list bytes) : res page_error pctx :=
  match packets with
  | [] => Ok c
  | p :: ps => let? c := paginate_packet (fresh_packet c p) p in paginate_all c ps
  end.

Definition set_flag (f : N) (p : page) : page :=
  mkPage (pg_start p) f (pg_abgp p) (pg_serial p) (pg_seq p) (pg_segs p) (pg_cksum p) (pg_content p) (pg_end p).
(** [ctx.pages.last_mut()] with the flag update of paginate.rs 149-153. *)
Fixpoint mark_last (l : list page) : list page :=
  match l with
  | [] => []
  | [p] => [set_flag (N.lor (pg_flag p) LAST_PAGE) p]
  | p :: l' => p :: mark_last l'
  end.

(** paginate.rs 138-156, paginate. *)
Definition paginate (packets : list bytes) (serial abgp flags : N) : res page_error (list page) :=
  let? c := paginate_all (ctx_new abgp serial flags) packets in
  Ok (if N.land flags LAST_PAGE =? 4 then mark_last (c_pages c) else c_pages c).

(** ** packets.rs *)

(** packets.rs 11-14. *)
Record packets := mkPackets { pk_content : bytes; pk_sizes : list N }.

(** packets.rs 137-154, get_byte_count_to_read (the subtraction underflow would panic). *)
Definition byte_count_to_read (size : N) (already : option N) : res page_error (N * option N) :=
  match already with
  | Some a => if size <? a then Panic else Ok (size - a, Some (a + (size - a)))
  | None => Ok (size, Some size)
  end.

(** Loop state of read_count, packets.rs 72-84. *)
Record rstate := mkR { rs_content : bytes; rs_sizes : list N; rs_psize : N; rs_already : option N; rs_read : Z }.

(** packets.rs 86-111: the loop over a page's segments. [true] means [break 'outer]. *)
Fixpoint read_segs (count : Z) (segs : bytes) (s : rstate) (r : bytes) : res page_error (bool * rstate * bytes) :=
  match segs with
  | [] => Ok (false, s, r)
  | i :: segs' =>
      let psize := rs_psize s + i in
      if i <? 255 then
        let nread := if (count =? -1)%Z then rs_read s else (rs_read s + 1)%Z in
        let? (n, _) := byte_count_to_read psize (rs_already s) in
        let? (buf, r') := io (read_exact n r) in
        let s' := mkR (rs_content s ++ buf) (rs_sizes s ++ [psize]) 0 None nread in
        if (nread =? count)%Z then Ok (true, s', r')
        else read_segs count segs' s' r'
      else read_segs count segs' (mkR (rs_content s) (rs_sizes s) psize (rs_already s) (rs_read s)) r
  end.

(** packets.rs 85-123: the loop over pages; a header that cannot be read ends it. *)
Fixpoint read_pages (fuel : nat) (count : Z) (s : rstate) (r : bytes) : res page_error (rstate * bytes) :=
  match fuel with
  | O => Panic
  | S fuel' =>
      match header_read 0 r with
      | Ok (h, r1) =>
          let? (stop, s1, r2) := read_segs count (pg_segs h) s r1 in
          if (stop : bool) then Ok (s1, r2)
          else if negb (rs_psize s1 =? 0) then
            let? (n, already) := byte_count_to_read (rs_psize s1) (rs_already s1) in
            let? (buf, r3) := io (read_exact n r2) in
            read_pages fuel' count (mkR (rs_content s1 ++ buf) (rs_sizes s1) (rs_psize s1) already (rs_read s1)) r3
          else read_pages fuel' count s1 r2
      | Err _ => Ok (s, r)
      | Panic => Panic
      end
  end.

(** packets.rs 68-135, read_count; the result carries the unread rest of the input. *)
Definition read_count (r : bytes) (count : Z) : res page_error (packets * bytes) :=
  if (count =? 0)%Z || (count <? -1)%Z then Ok (mkPackets [] [], r) else
  let? (s, r') := read_pages (S (length r)) count (mkR [] [] 0 None 0%Z) r in
  if negb (count =? -1)%Z && negb (Z.of_nat (length (rs_sizes s)) =? count)%Z then Err NotEnoughData
  else Ok (mkPackets (rs_content s) (rs_sizes s), r').

(** packets.rs 35-40, Packets::read. *)
Definition packets_read (r : bytes) : res page_error (packets * bytes) := read_count r (-1).

(** packets.rs 174-196, len and is_empty. *)
Definition pk_len (p : packets) : N := lenN (pk_sizes p).

(** packets.rs 199-215, packet_span. *)
Definition packet_span (p : packets) (idx : N) : option (N * N) :=
  if lenN (pk_sizes p) <=? idx then None
  else
    let start := if idx =? 0 then 0 else sumN (takeN idx (pk_sizes p)) in
    match nth_error (pk_sizes p) (N.to_nat idx) with
    | Some size => Some (start, start + size)
    | None => None
    end.

(** Slicing [&v[a..b]]: panics when a > b or b > len. *)
Definition slice {E} (l : bytes) (a b : N) : res E bytes :=
  if (b <? a) || (lenN l <? b) then Panic else Ok (takeN (b - a) (dropN a l)).

(** packets.rs 242-244, get. *)
Definition pk_get (p : packets) (idx : N) : res page_error (option bytes) :=
  match packet_span p idx with
  | None => Ok None
  | Some (a, b) => let? s := slice (pk_content p) a b in Ok (Some s)
  end.

Fixpoint update_nth {A} (n : nat) (x : A) (l : list A) : list A :=
  match n, l with
  | O, _ :: l' => x :: l'
  | S n', y :: l' => y :: update_nth n' x l'
  | _, [] => []
  end.

(** packets.rs 278-290, set: Vec::splice over the packet's range. *)
Definition pk_set (p : packets) (idx : N) (content : bytes) : res page_error (bool * packets) :=
  match packet_span p idx with
  | None => Ok (false, p)
  | Some (a, b) =>
      if (b <? a) || (lenN (pk_content p) <? b) then Panic
      else Ok (true, mkPackets (takeN a (pk_content p) ++ content ++ dropN b (pk_content p))
                               (update_nth (N.to_nat idx) (lenN content) (pk_sizes p)))
  end.

(** packets.rs 341-351: the packets as slices, as passed to paginate. *)
Fixpoint pk_slices (content : bytes) (pos : N) (sizes : list N) : res page_error (list bytes) :=
  match sizes with
  | [] => Ok []
  | n :: sizes' =>
      let? s := slice content pos (pos + n) in
      let? rest := pk_slices content (pos + n) sizes' in
      Ok (s :: rest)
  end.
Definition pk_paginate (p : packets) (serial abgp flags : N) : res page_error (list page) :=
  let? l := pk_slices (pk_content p) 0 (pk_sizes p) in
  paginate l serial abgp flags.

(** packets.rs 387-405, write_to: the bytes written and the number of pages. *)
Fixpoint write_pages (ps : list page) : res page_error bytes :=
  match ps with
  | [] => Ok []
  | p :: ps' =>
      let? p' := gen_crc p in
      let? rest := write_pages ps' in
      Ok (as_bytes p' ++ rest)
  end.
Definition write_to (p : packets) (serial abgp flags : N) : res page_error (bytes * N) :=
  let? ps := pk_paginate p serial abgp flags in
  let? out := write_pages ps in
  Ok (out, lenN ps).

(** packets.rs 411-437, PacketsIter::next until [cap] is exhausted ([split_at] panics out of range). *)
Fixpoint pk_iter (cap : nat) (content : bytes) (sizes : list N) : res page_error (list bytes) :=
  match cap with
  | O => Ok []
  | S cap' =>
      match sizes with
      | [] => Panic
      | n :: sizes' =>
          if lenN content <? n then Panic
          else let? rest := pk_iter cap' (dropN n content) sizes' in
               Ok (takeN n content :: rest)
      end
  end.
Definition pk_into_iter (p : packets) : res page_error (list bytes) :=
  pk_iter (length (pk_sizes p)) (pk_content p) (pk_sizes p).
