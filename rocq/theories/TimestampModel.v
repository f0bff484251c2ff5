(** Model of lofty/src/tag/items/timestamp.rs. *)
From Verif Require Export Base Str Mode.

(** lines 26-40 *)
Record timestamp : Type := mkTs {
  ts_year : N; ts_month : option N; ts_day : option N;
  ts_hour : option N; ts_minute : option N; ts_second : option N }.

Inductive ts_field : Set := FYear | FMonth | FDay | FHour | FMinute | FSecond.
(** lines 106-135 *)
Inductive ts_error : Type :=
| TEmpty | TBadYear | TMissingSeparator | TSegmentTooShort | TContainsSpaces
| TUnexpectedChar (c : N) | TFieldTooLarge (f : ts_field) | TIo.

(** lines 48-58: derived [Ord] of u16 and [Option<u8>], chained with [then]. *)
Definition opt_cmp (a b : option N) : comparison :=
  match a, b with
  | None, None => Eq
  | None, Some _ => Lt
  | Some _, None => Gt
  | Some x, Some y => x ?= y
  end.
Definition ord_then (a b : comparison) : comparison := match a with Eq => b | _ => a end.
Definition ts_cmp (a b : timestamp) : comparison :=
  ord_then (ord_then (ord_then (ord_then (ord_then (ts_year a ?= ts_year b)
    (opt_cmp (ts_month a) (ts_month b))) (opt_cmp (ts_day a) (ts_day b)))
    (opt_cmp (ts_hour a) (ts_hour b))) (opt_cmp (ts_minute a) (ts_minute b)))
    (opt_cmp (ts_second a) (ts_second b)).

(** [write!("{:0w}", n)]: decimal, left-padded with zeros to width w. *)
Definition pad (w : nat) (n : N) : bytes := repeat 48 (w - length (to_dec n)) ++ to_dec n.

(** lines 60-86 *)
Definition ts_display (t : timestamp) : bytes :=
  pad 4 (ts_year t) ++
  match ts_month t with None => [] | Some mo => 45 :: pad 2 mo ++
  match ts_day t with None => [] | Some d => 45 :: pad 2 d ++
  match ts_hour t with None => [] | Some h => 84 :: pad 2 h ++
  match ts_minute t with None => [] | Some mi => 58 :: pad 2 mi ++
  match ts_second t with None => [] | Some s => 58 :: pad 2 s
  end end end end end.

(** line 177 *)
Definition SEPARATORS : bytes := [45; 46; 84; 58].
Definition mem (b : N) (l : bytes) : bool := existsb (N.eqb b) l.
(** std [u8::is_ascii_whitespace] *)
Definition ascii_ws (b : N) : bool := mem b [32; 9; 10; 12; 13].

(** lines 331-365: the digit loop. [num] is a u16 (overflow would panic in a checked build). *)
Fixpoint seg_loop (l : bytes) (m : pmode) (has_sep : bool) (num : option N) (count : N) : res ts_error (option N * N) :=
  match l with
  | [] => Ok (num, count)
  | i :: l' =>
      if i =? 32 then
        if is_strict m then Err TContainsSpaces else seg_loop l' m has_sep num (count + 1)
      else if negb (is_digit i) then
        if has_sep && mem i SEPARATORS && negb (is_strict m) then Ok (num, count)
        else Err (TUnexpectedChar i)
      else
        let v := match num with Some n => n | None => 0 end * 10 + (i - 48) in
        if U16_MAX <? v then Panic
        else seg_loop l' m has_sep (Some v) (count + 1)
  end.

Fixpoint position (b : N) (l : bytes) : option N :=
  match l with
  | [] => None
  | x :: l' => if x =? b then Some 0 else match position b l' with Some p => Some (p + 1) | None => None end
  end.

(** lines 321-329 and 331-378, after the separator. *)
Definition seg_body (size : N) (content : bytes) (has_sep : bool) (m : pmode) : res ts_error (N * N * bytes) :=
  if lenN content <? size then
    if is_strict m then Err TSegmentTooShort else Ok (0, 0, content)
  else
    let? (num, count) := seg_loop (takeN size content) m has_sep None 0 in
    match num with
    | None => if is_strict m then Panic (* assert_ne! *) else Ok (0, 0, content)
    | Some n => if lenN content <? count then Panic else Ok (n, count, dropN count content)
    end.

(** lines 295-382: returns the number, the bytes read and the remaining content. *)
Definition segment (size : N) (content : bytes) (sep : option bytes) (m : pmode) : res ts_error (N * N * bytes) :=
  match content with
  | [] => Ok (0, 0, [])
  | byte :: content' =>
      match sep with
      | None => seg_body size content false m
      | Some seps =>
          match position byte seps with
          | Some pos => if (0 <? pos) && is_strict m then Err (TUnexpectedChar byte)
                        else seg_body size content' true m
          | None => if is_strict m then Err TMissingSeparator else Ok (0, 0, content')
          end
      end
  end.

(** lines 218-222: skip leading whitespace; [None] is [UnexpectedEof]. *)
Fixpoint skip_ws (c : N) (r : bytes) : option (N * bytes) :=
  if ascii_ws c then match r with [] => None | c' :: r' => skip_ws c' r' end else Some (c, r).

(** lines 256-288: the [loop] with its [read_segment!] macro; [val as u8] keeps the low 8 bits. *)
Definition ts_fields (y : N) (r : bytes) (seps : bool) (m : pmode) : res ts_error timestamp :=
  let dash := if seps then Some [45; 46] else None in
  let colon := if seps then Some [58] else None in
  let? (mo, c, r) := segment 2 r dash m in
  if c =? 0 then Ok (mkTs y None None None None None) else
  let? (d, c, r) := segment 2 r dash m in
  if c =? 0 then Ok (mkTs y (Some (mo mod 256)) None None None None) else
  let? (h, c, r) := segment 2 r (Some [84]) m in
  if c =? 0 then Ok (mkTs y (Some (mo mod 256)) (Some (d mod 256)) None None None) else
  let? (mi, c, r) := segment 2 r colon m in
  if c =? 0 then Ok (mkTs y (Some (mo mod 256)) (Some (d mod 256)) (Some (h mod 256)) None None) else
  let? (s, c, r) := segment 2 r colon m in
  if c =? 0 then Ok (mkTs y (Some (mo mod 256)) (Some (d mod 256)) (Some (h mod 256)) (Some (mi mod 256)) None) else
  Ok (mkTs y (Some (mo mod 256)) (Some (d mod 256)) (Some (h mod 256)) (Some (mi mod 256)) (Some (s mod 256))).

(** lines 224-291, on the (at most 19) bytes collected. *)
Definition ts_content (content : bytes) (m : pmode) : res ts_error (option timestamp) :=
  let seps := existsb (fun b => negb (b =? 84) && mem b SEPARATORS) content in
  let? (year, count, r) := segment 4 content None m in
  if negb (count =? 4) then (if is_strict m then Err TBadYear else Ok None)
  else match r with
       | [] => Ok (Some (mkTs year None None None None None))
       | _ => let? t := ts_fields year r seps m in Ok (Some t)
       end.

(** lines 193-293 *)
Definition ts_parse (r : bytes) (m : pmode) : res ts_error (option timestamp) :=
  match r with
  | [] => if is_strict m then Err TEmpty else Ok None
  | c :: r =>
      match (if is_strict m then Some (c, r) else skip_ws c r) with
      | None => Err TIo
      | Some (c, r) => ts_content (c :: takeN 18 r) m
      end
  end.

(** lines 165-172: FromStr *)
Definition ts_from_str (s : bytes) : res ts_error timestamp :=
  let? o := ts_parse s BestAttempt in
  match o with Some t => Ok t | None => Err TEmpty end.

(** lines 384-409 *)
Definition verify_field (f : ts_field) (v : option N) (limit : N) (parent : option N) : res ts_error unit :=
  match v with
  | Some x => match parent with
              | Some _ => if x <=? limit then Ok tt else Err (TFieldTooLarge f)
              | None => Err (TFieldTooLarge f)
              end
  | None => Ok tt
  end.
Definition ts_verify (t : timestamp) : res ts_error unit :=
  if 9999 <? ts_year t then Err (TFieldTooLarge FYear) else
  let? _ := verify_field FMonth (ts_month t) 12 (Some (ts_year t mod 256)) in
  let? _ := verify_field FDay (ts_day t) 31 (ts_month t) in
  let? _ := verify_field FHour (ts_hour t) 23 (ts_day t) in
  let? _ := verify_field FMinute (ts_minute t) 59 (ts_hour t) in
  verify_field FSecond (ts_second t) 59 (ts_minute t).
