(** Model of lofty/src/iff/aiff/read.rs, iff/aiff/properties.rs and iff/aiff/tag/mod.rs.
    Simplified: the reader, the ID3v2 parser and fuel as in [IffModel.v]; allocation never fails; a finite f64 is the
    rational it stands for, and an arithmetic operation is the exact operation followed by rounding to 53 bits, ties to even
    (none of the values here is small or large enough for subnormals or overflow). *)
From Verif Require Export IffModel.
From Verif Require Import MathModel.

(** aiff/tag/mod.rs 24-88 *)
Record comment := mkComt { ct_time : N; ct_marker : N; ct_text : str }.
Record aiff_text := mkAt { at_name : option str; at_author : option str; at_copy : option str; at_anno : option (list str); at_comments : option (list comment) }.
Definition at_empty : aiff_text := mkAt None None None None None.
(** 164-189, [TagExt::len] and [TagExt::is_empty] *)
Definition opt_len {A} (o : option A) : N := match o with Some _ => 1 | None => 0 end.
Definition list_len {A} (o : option (list A)) : N := match o with Some l => lenN l | None => 0 end.
Definition at_len (t : aiff_text) : N := opt_len (at_name t) + opt_len (at_author t) + opt_len (at_copy t) + list_len (at_anno t) + list_len (at_comments t).
Definition at_is_empty (t : aiff_text) : bool := match t with mkAt None None None None None => true | _ => false end.
(** 90-122, [Accessor::comment] *)
Definition at_comment (t : aiff_text) : option str :=
  match at_anno t with
  | Some (a :: _) => Some a
  | _ => match at_comments t with Some (c :: _) => Some (ct_text c) | _ => None end
  end.

(** 397-418; the length is at most [u32::MAX], otherwise the value is left out. *)
Definition text_chunk (key : bytes) (v : option str) : bytes :=
  match v with
  | None => []
  | Some s =>
      let b := utf8_enc s in
      if U32_MAX <? lenN b then [] else key ++ be_enc 4 (lenN b) ++ b ++ (if N.even (lenN b) then [] else [0])
  end.
(** 430-447 *)
Fixpoint comment_bytes (l : list comment) : res iff_error bytes :=
  match l with
  | [] => Ok []
  | c :: l =>
      let b := utf8_enc (ct_text c) in
      if U16_MAX <? lenN b then Err ITooMuch else
      let? r := comment_bytes l in
      Ok (be_enc 4 (ct_time c) ++ be_enc 2 (ct_marker c) ++ be_enc 2 (lenN b) ++ b ++ (if N.even (lenN b) then [] else [0]) ++ r)
  end.
(** 422-458 *)
Definition comt_part (o : option (list comment)) : res iff_error bytes :=
  match o with
  | Some (c :: l) =>
      if U16_MAX <? lenN (c :: l) then Err ITooMuch else
      let? b := comment_bytes (c :: l) in
      let n := 2 + lenN b in
      if U32_MAX <? n then Err ITooMuch else
      Ok ($"COMT" ++ be_enc 4 n ++ be_enc 2 (lenN (c :: l)) ++ b ++ (if N.even n then [] else [0]))
  | _ => Ok []
  end.
(** 394-475 *)
Definition create_text_chunks (t : aiff_text) : res iff_error bytes :=
  let? comt := comt_part (at_comments t) in
  Ok (comt ++ text_chunk ($"NAME") (at_name t) ++ text_chunk ($"AUTH") (at_author t) ++ text_chunk ($"(c) ") (at_copy t)
    ++ match at_anno t with Some l => flat_map (fun a => text_chunk ($"ANNO") (Some a)) l | None => [] end).

(** aiff/read.rs 21-45: whether it is AIFC, and the rest of the reader *)
Definition verify_aiff (data : bytes) : res iff_error (bool * bytes) :=
  let? (id, r) := iord (read_exact 12 data) in
  if negb (list_eqb (takeN 4 id) ($"FORM")) then Err IUnknown else
  if list_eqb (dropN 8 id) ($"AIFF") then Ok (false, r) else
  if list_eqb (dropN 8 id) ($"AIFC") then Ok (true, r) else Err IUnknown.

(** aiff/tag/mod.rs 540-589 *)
Definition is_text_id (id : bytes) : bool :=
  list_eqb id ($"NAME") || list_eqb id ($"AUTH") || list_eqb id ($"(c) ") || list_eqb id ($"ANNO") || list_eqb id ($"COMT").
Fixpoint find_text_chunks (fuel : nat) (m : pmode) (s : chunks) (texts : list (N * N)) (comm : option N) : res iff_error (list (N * N) * option N) :=
  match fuel with
  | O => Panic
  | S fuel =>
      let? (c, s) := next true m s in
      match c with
      | None => Ok (texts, comm)
      | Some c =>
          if is_text_id (k_fourcc c) then
            let? s := skip s in find_text_chunks fuel m s (texts ++ [(k_start c + 12, c_position s + 12)]) comm
          else if list_eqb (k_fourcc c) ($"COMM") then
            let? s := skip s in find_text_chunks fuel m s texts (Some (c_position s + 12))
          else find_text_chunks fuel m s texts comm
      end
  end.
(** [sort_unstable_by_key] on the starts, which are different. *)
Fixpoint insert_range (r : N * N) (l : list (N * N)) : list (N * N) :=
  match l with [] => [r] | x :: l' => if fst r <=? fst x then r :: l else x :: insert_range r l' end.
Definition sort_ranges (l : list (N * N)) : list (N * N) := fold_right insert_range [] l.
(** 477-528. [drain] is [splice] with nothing. *)
Fixpoint drain_all (l : list (N * N)) (v : bytes) : res iff_error bytes :=
  match l with [] => Ok v | (a, b) :: l => let? v := splice a b [] v in drain_all l v end.
Definition write_aiff_text (m : pmode) (data : bytes) (t : aiff_text) : res iff_error (list fop) :=
  let? (_, r) := verify_aiff data in
  let? text := create_text_chunks t in
  let? (texts, comm) := find_text_chunks (S (length data)) m (chunks_new r 12 (lenN data - 12)) [] None in
  match comm with
  | None => Err IMissingComm
  | Some comm =>
      let? v := (match rev (sort_ranges texts) with
        | [] => splice comm comm text data
        | l =>
            let? v := drain_all (removelast l) data in
            splice (fst (last l (0, 0))) (snd (last l (0, 0))) text v
        end) in
      let? v := splice 4 8 (be_enc 4 (as_u32 (lenN v - 8))) v in
      Ok (rewrite_all v)
  end.

(** ** Properties: aiff/properties.rs 154-253 *)
(** A non-negative rational rounded to the nearest with 53 bits, ties to even. Simplified: exact down to 2^-268, everything computed here is larger. *)
Definition rat := (N * N)%type.
Definition SCALE : N := 2 ^ 320.
Definition rne (a b : N) : N :=
  let q := a / b in let r := a mod b in
  if (2 * r <? b) || ((2 * r =? b) && N.even q) then q else q + 1.
Definition f64_round (x : rat) : rat :=
  let '(n, d) := x in
  if n =? 0 then (0, 1) else
  let lg := N.log2 (n * SCALE / d) in
  let unit := 2 ^ (lg - 52) in
  (rne (n * SCALE) (d * unit) * unit, SCALE).
Definition r_mul (x y : rat) : rat := f64_round (fst x * fst y, snd x * snd y).
Definition r_div (x y : rat) : rat := f64_round (fst x * snd y, snd x * fst y).
Definition r_add (x y : rat) : rat := f64_round (fst x * snd y + fst y * snd x, snd x * snd y).
Definition of_int (n : N) : rat := f64_round (n, 1).
(** [x as uN] *)
Definition to_int (max : N) (x : rat) : N := N.min max (fst x / snd x).
(** A finite f64 from its bits, without the sign *)
Definition f64_exp (bits : N) : N := N.shiftr bits 52 mod 2 ^ 11.
Definition f64_value (bits : N) : rat :=
  let f := bits mod 2 ^ 52 in
  let e := f64_exp bits in
  if e =? 0 then (f, 2 ^ 1074) else ((2 ^ 52 + f) * 2 ^ e, 2 ^ 1075).
Definition f64_finite (bits : N) : bool := negb (f64_exp bits =? 2047).
Definition f64_positive (bits : N) : bool := negb (N.testbit bits 63).
(** [f64::round]: to the nearest integer, ties away from zero *)
Definition f64_round_int (x : rat) : N := (2 * fst x + snd x) / (2 * snd x).

Inductive aiff_comp := KNone | KACE2 | KACE8 | KMAC3 | KMAC6 | Ksowt | Kfl32 | Kfl64 | Kalaw | Kulaw | KULAW | KALAW | KFL32 | KOther (ty : bytes) (name : str).
Definition comp_table : list (bytes * aiff_comp) :=
  [($"NONE", KNone); ($"ACE2", KACE2); ($"ACE8", KACE8); ($"MAC3", KMAC3); ($"MAC6", KMAC6); ($"sowt", Ksowt); ($"fl32", Kfl32); ($"fl64", Kfl64);
   ($"alaw", Kalaw); ($"ulaw", Kulaw); ($"ULAW", KULAW); ($"ALAW", KALAW); ($"FL32", KFL32)].
Record aiff_props := mkAp { ap_duration : N; ap_overall : N; ap_audio : N; ap_rate : N; ap_size : N; ap_channels : N; ap_comp : option aiff_comp }.
Definition aiff_times (frames rate stream file : N) : N * N * N :=
  (if (0 <? rate) && (0 <? frames) then
      let length := r_div (r_mul (of_int frames) (1000, 1)) (of_int rate) in
      (to_int U64_MAX length,
       to_int U32_MAX (r_add (r_div (r_mul (of_int file) (8, 1)) length) (1, 2)),
       to_int U32_MAX (r_add (r_div (r_mul (of_int stream) (8, 1)) length) (1, 2)))
    else (0, 0, 0)).
Definition aiff_properties (comm : bytes) (aifc : bool) (stream file : N) : res iff_error aiff_props :=
  let? (channels, r) := iord (read_be 2 comm) in
  if channels =? 0 then Err (IMessage 7) else
  let? (frames, r) := iord (read_be 4 r) in
  let? (size, r) := iord (read_be 2 r) in
  let? (f, r) := iord (read_exact 10 r) in
  let bits := f80_as_f64 (f80_from_be f) in
  if negb (f64_finite bits) || negb (f64_positive bits) then Err (IMessage 8) else
  let rate := N.min U32_MAX (f64_round_int (f64_value bits)) in
  let '(duration, overall, audio) := aiff_times frames rate stream file in
  if negb ((5 <=? lenN r) && aifc) then Ok (mkAp duration overall audio rate size channels None) else
  let? (ty, r) := iord (read_exact 4 r) in
  let? comp := (match find (fun e => list_eqb (fst e) ty) comp_table with
    | Some (_, c) => Ok c
    | None =>
        let? (n, r) := iord (read_u8 r) in
        if 0 <? n then
          let? (b, _) := iord (read_exact n r) in
          match utf8_decode b with Ok s => Ok (KOther ty s) | Err _ => Err IText | Panic => Panic end
        else Ok (KOther ty [])
    end) in
  Ok (mkAp duration overall audio rate size channels (Some comp)).

(** ** Files: aiff/read.rs 47-221 *)
Definition chunk_string (n : N) (s : chunks) : res iff_error (str * chunks) :=
  let? (b, s) := chunk_read n s in
  match utf8_decode b with Ok t => Ok (t, s) | Err _ => Err IText | Panic => Panic end.
(** 117-142 *)
Fixpoint read_comments (n : nat) (s : chunks) : res iff_error (list comment * chunks) :=
  match n with
  | O => Ok ([], s)
  | S n =>
      let? (t, s) := chunk_read 4 s in
      let? (mk, s) := chunk_read 2 s in
      let? (sz, s) := chunk_read 2 s in
      let? (text, s) := chunk_string (be_dec sz) s in
      let? (l, s) := read_comments n s in
      Ok (mkComt (be_dec t) (be_dec mk) text :: l, s)
  end.
Record aiff_acc (T : Type) := mkAa { aa_comm : option bytes; aa_stream : N; aa_name : option str; aa_author : option str; aa_copy : option str;
  aa_anno : list str; aa_comments : list comment; aa_id3 : option T }.
Arguments mkAa {T}. Arguments aa_comm {T}. Arguments aa_stream {T}. Arguments aa_name {T}. Arguments aa_author {T}. Arguments aa_copy {T}.
Arguments aa_anno {T}. Arguments aa_comments {T}. Arguments aa_id3 {T}.
Definition is_none {A} (o : option A) : bool := match o with None => true | _ => false end.
Definition is_nil {A} (l : list A) : bool := match l with [] => true | _ => false end.
Definition aiff_chunk {T} (id3 : bytes -> res iff_error T) (join : T -> T -> T) (m : pmode) (tags props : bool) (c : chunk) (s : chunks) (a : aiff_acc T) : res iff_error (aiff_acc T * chunks) :=
  let is x := list_eqb (k_fourcc c) x in
  let '(mkAa comm stream name author copy anno comments tag) := a in
  if (is ($"ID3 ") || is ($"id3 ")) && tags then
    let? (t, s) := id3_chunk id3 m (k_size c) s in
    match t with
    | None => Ok (a, s)
    | Some t => Ok (mkAa comm stream name author copy anno comments (Some (match tag with Some old => join old t | None => t end)), s)
    end
  else if is ($"COMM") && props && is_none comm then
    if k_size c <? 18 then Err INeed else
    let? (b, s) := chunk_read (k_size c) s in Ok (mkAa (Some b) stream name author copy anno comments tag, s)
  else if is ($"SSND") && props then Ok (mkAa comm (k_size c) name author copy anno comments tag, s)
  else if is ($"ANNO") && tags then
    let? (t, s) := chunk_string (k_size c) s in Ok (mkAa comm stream name author copy (anno ++ [t]) comments tag, s)
  else if is ($"COMT") && is_nil comments && tags then
    if k_size c <? 2 then Ok (a, s) else
    let? (n, s) := chunk_read 2 s in
    let? (l, s) := read_comments (N.to_nat (be_dec n)) s in
    Ok (mkAa comm stream name author copy anno l tag, s)
  else if is ($"NAME") && is_none name && tags then
    let? (t, s) := chunk_string (k_size c) s in Ok (mkAa comm stream (Some t) author copy anno comments tag, s)
  else if is ($"AUTH") && is_none author && tags then
    let? (t, s) := chunk_string (k_size c) s in Ok (mkAa comm stream name (Some t) copy anno comments tag, s)
  else if is ($"(c) ") && is_none copy && tags then
    let? (t, s) := chunk_string (k_size c) s in Ok (mkAa comm stream name author (Some t) anno comments tag, s)
  else Ok (a, s).
Fixpoint aiff_loop {T} (id3 : bytes -> res iff_error T) (join : T -> T -> T) (fuel : nat) (m : pmode) (tags props : bool) (s : chunks) (a : aiff_acc T) : res iff_error (aiff_acc T * chunks) :=
  match fuel with
  | O => Panic
  | S fuel =>
      let? (c, s) := next true m s in
      match c with
      | None => Ok (a, s)
      | Some c => let? (a, s) := aiff_chunk id3 join m tags props c s a in aiff_loop id3 join fuel m tags props s a
      end
  end.
Record aiff_file (T : Type) := mkAf { af_props : option aiff_props; af_text : option aiff_text; af_id3 : option T }.
Arguments mkAf {T}. Arguments af_props {T}. Arguments af_text {T}. Arguments af_id3 {T}.
Definition acc_text {T} (a : aiff_acc T) : option aiff_text :=
  let t := mkAt (aa_name a) (aa_author a) (aa_copy a) (match aa_anno a with [] => None | l => Some l end) (match aa_comments a with [] => None | l => Some l end) in
  if at_is_empty t then None else Some t.
Definition aiff_read {T} (id3 : bytes -> res iff_error T) (join : T -> T -> T) (m : pmode) (tags props : bool) (data : bytes) : res iff_error (aiff_file T) :=
  let? (aifc, r) := verify_aiff data in
  let? (a, s) := aiff_loop id3 join (S (length data)) m tags props (chunks_new r 12 (lenN data - 12)) (mkAa None 0 None None None [] [] None) in
  let? p := (if props then
      match aa_comm a with
      | None => Err IMissingComm
      | Some comm =>
          if aa_stream a =? 0 then Err (IMessage 9) else
          let? p := aiff_properties comm aifc (aa_stream a) (c_pos s) in Ok (Some p)
      end
    else Ok None) in
  Ok (mkAf p (acc_text a) (aa_id3 a)).
