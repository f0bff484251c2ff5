(** Model of lofty/src/id3/v1. *)
From Verif Require Import Base Str TextModel FileModel.

(** constants.rs 4-197, GENRES (copied from the source text). *)
Definition GENRES : list str := [
  $"Blues";
  $"Classic rock";
  $"Country";
  $"Dance";
  $"Disco";
  $"Funk";
  $"Grunge";
  $"Hip-Hop";
  $"Jazz";
  $"Metal";
  $"New Age";
  $"Oldies";
  $"Other";
  $"Pop";
  $"R&B";
  $"Rap";
  $"Reggae";
  $"Rock";
  $"Techno";
  $"Industrial";
  $"Alternative";
  $"Ska";
  $"Death metal";
  $"Pranks";
  $"Soundtrack";
  $"Euro-Techno";
  $"Ambient";
  $"Trip-Hop";
  $"Vocal";
  $"Jazz & Funk";
  $"Fusion";
  $"Trance";
  $"Classical";
  $"Instrumental";
  $"Acid";
  $"House";
  $"Game";
  $"Sound clip";
  $"Gospel";
  $"Noise";
  $"Alternative Rock";
  $"Bass";
  $"Soul";
  $"Punk";
  $"Space";
  $"Meditative";
  $"Instrumental Pop";
  $"Instrumental Rock";
  $"Ethnic";
  $"Gothic";
  $"Darkwave";
  $"Techno-Industrial";
  $"Electronic";
  $"Pop-Folk";
  $"Eurodance";
  $"Dream";
  $"Southern Rock";
  $"Comedy";
  $"Cult";
  $"Gangsta";
  $"Top 40";
  $"Christian Rap";
  $"Pop/Funk";
  $"Jungle";
  $"Native US";
  $"Cabaret";
  $"New Wave";
  $"Psychedelic";
  $"Rave";
  $"Show tunes";
  $"Trailer";
  $"Lo-Fi";
  $"Tribal";
  $"Acid Punk";
  $"Acid Jazz";
  $"Polka";
  $"Retro";
  $"Musical";
  $"Rock \u{2019}n\u{2019} Roll";
  $"Hard Rock";
  $"Folk";
  $"Folk-Rock";
  $"National Folk";
  $"Swing";
  $"Fast Fusion";
  $"Bebop";
  $"Latin";
  $"Revival";
  $"Celtic";
  $"Bluegrass";
  $"Avantgarde";
  $"Gothic Rock";
  $"Progressive Rock";
  $"Psychedelic Rock";
  $"Symphonic Rock";
  $"Slow rock";
  $"Big Band";
  $"Chorus";
  $"Easy Listening";
  $"Acoustic";
  $"Humour";
  $"Speech";
  $"Chanson";
  $"Opera";
  $"Chamber music";
  $"Sonata";
  $"Symphony";
  $"Booty bass";
  $"Primus";
  $"Porn groove";
  $"Satire";
  $"Slow jam";
  $"Club";
  $"Tango";
  $"Samba";
  $"Folklore";
  $"Ballad";
  $"Power Ballad";
  $"Rhythmic Soul";
  $"Freestyle";
  $"Duet";
  $"Punk Rock";
  $"Drum Solo";
  $"A cappella";
  $"Euro-House";
  $"Dance Hall";
  $"Goa music";
  $"Drum & Bass";
  $"Club-House";
  $"Hardcore Techno";
  $"Terror";
  $"Indie";
  $"BritPop";
  $"Negerpunk";
  $"Polsk Punk";
  $"Beat";
  $"Christian Gangsta Rap";
  $"Heavy Metal";
  $"Black Metal";
  $"Crossover";
  $"Contemporary Christian";
  $"Christian rock";
  $"Merengue";
  $"Salsa";
  $"Thrash Metal";
  $"Anime";
  $"Jpop";
  $"Synthpop";
  $"Abstract";
  $"Art Rock";
  $"Baroque";
  $"Bhangra";
  $"Big beat";
  $"Breakbeat";
  $"Chillout";
  $"Downtempo";
  $"Dub";
  $"EBM";
  $"Eclectic";
  $"Electro";
  $"Electroclash";
  $"Emo";
  $"Experimental";
  $"Garage";
  $"Global";
  $"IDM";
  $"Illbient";
  $"Industro-Goth";
  $"Jam Band";
  $"Krautrock";
  $"Leftfield";
  $"Lounge";
  $"Math Rock";
  $"New Romantic";
  $"Nu-Breakz";
  $"Post-Punk";
  $"Post-Rock";
  $"Psytrance";
  $"Shoegaze";
  $"Space Rock";
  $"Trop Rock";
  $"World Music";
  $"Neoclassical";
  $"Audiobook";
  $"Audio theatre";
  $"Neue Deutsche Welle";
  $"Podcast";
  $"Indie-Rock";
  $"G-Funk";
  $"Dubstep";
  $"Garage Rock";
  $"Psybient"].

(** tag.rs 84-119, Id3v1Tag. *)
Record id3v1 := mkV1 { v1_title : option str; v1_artist : option str; v1_album : option str; v1_year : option N;
  v1_comment : option str; v1_track : option N; v1_genre : option N }.
Definition v1_empty : id3v1 := mkV1 None None None None None None None.

(** error.rs: FakeTagError and the non-digit-year error; write.rs: text encoding errors. *)
Inductive v1_error := V1FakeTag | V1NonDigitYear | V1Text (e : enc_error).

Definition TAG : bytes := [84; 65; 71].

(** Slicing [&v[a..b]]. *)
Definition sub {E} (l : bytes) (a b : N) : res E bytes :=
  if (b <? a) || (lenN l <? b) then Panic else Ok (takeN (b - a) (dropN a l)).
Definition index {E} (l : bytes) (i : N) : res E N :=
  match nth_error l (N.to_nat i) with Some b => Ok b | None => Panic end.

(** read.rs 55-70, decode_text (the warning about trailing junk is not modelled). *)
Fixpoint position_nul (l : bytes) : option N :=
  match l with
  | [] => None
  | b :: l' => if b =? 0 then Some 0 else match position_nul l' with Some n => Some (n + 1) | None => None end
  end.
Definition v1_decode_text (data : bytes) : option str :=
  match position_nul data with
  | Some 0 => None
  | Some n => Some (latin1_decode (takeN n data))
  | None => Some (latin1_decode data)
  end.

(** read.rs 72-91, try_parse_year; u16 overflow would panic. *)
Fixpoint fold_year (input : bytes) (num year : N) : res v1_error (N * N) :=
  match input with
  | [] => Ok (num, year)
  | c :: input' =>
      if is_digit c then
        let y := year * 10 + (c - 48) in
        if U16_MAX <? y then Panic else fold_year input' (num + 1) y
      else Ok (num, year)
  end.
Definition try_parse_year (input : bytes) (strict : bool) : res v1_error (option N) :=
  let? (num, year) := fold_year input 0 0 in
  if negb (num =? 4) then (if strict then Err V1NonDigitYear else Ok None) else Ok (Some year).

(** read.rs 11-53, Id3v1Tag::parse of a 128-byte block. *)
Definition v1_parse (block : bytes) (strict : bool) : res v1_error id3v1 :=
  let? marker := sub block 0 3 in
  if negb (list_eqb marker TAG) then Err V1FakeTag else
  let? reader := sub block 3 (lenN block) in
  let? title := sub reader 0 30 in
  let? artist := sub reader 30 60 in
  let? album := sub reader 60 90 in
  let? year_in := sub reader 90 94 in
  let? year := try_parse_year year_in strict in
  let? b122 := index reader 122 in
  let? b123 := index reader 123 in
  let v11 := (b122 =? 0) && negb (b123 =? 0) in
  let? comment := (if v11 then sub reader 94 123 else sub reader 94 124) in
  let? b124 := index reader 124 in
  Ok (mkV1 (v1_decode_text title) (v1_decode_text artist) (v1_decode_text album) year
       (v1_decode_text comment) (if v11 then Some b123 else None)
       (if b124 <? lenN GENRES mod 256 then Some b124 else None)).

(** write.rs 51-67, resize_string: the first [size] characters, zero padded. *)
Definition resize_string (value : option str) (size : N) (lossy : bool) : res v1_error bytes :=
  match value with
  | None => Ok (repeat 0 (N.to_nat size))
  | Some v =>
      match latin1_encode (takeN size v) lossy with
      | Ok b => Ok (b ++ repeat 0 (N.to_nat (size - lenN b)))
      | Err e => Err (V1Text e)
      | Panic => Panic
      end
  end.

(** write.rs 82-97: the year digits. *)
Definition year_bytes (y : option N) : bytes :=
  match y with
  | None => [0; 0; 0; 0]
  | Some n =>
      let n := N.min n 9999 in
      [48 + (n / 10 / 10 / 10) mod 10; 48 + (n / 10 / 10) mod 10; 48 + (n / 10) mod 10; 48 + n mod 10]
  end.

(** write.rs 47-109, encode. *)
Definition v1_encode (t : id3v1) (lossy : bool) : res v1_error bytes :=
  let? title := resize_string (v1_title t) 30 lossy in
  let? artist := resize_string (v1_artist t) 30 lossy in
  let? album := resize_string (v1_album t) 30 lossy in
  let? comment := resize_string (v1_comment t) 28 lossy in
  Ok (TAG ++ title ++ artist ++ album ++ year_bytes (v1_year t) ++ comment ++ [0]
       ++ [match v1_track t with Some n => n | None => 0 end]
       ++ [match v1_genre t with Some n => n | None => 255 end]).

(** tag.rs 240-248, is_empty. *)
Definition is_none {A} (o : option A) : bool := match o with None => true | Some _ => false end.
Definition v1_is_empty (t : id3v1) : bool :=
  is_none (v1_title t) && is_none (v1_artist t) && is_none (v1_album t) && is_none (v1_year t)
  && is_none (v1_comment t) && is_none (v1_track t) && is_none (v1_genre t).

(** id3/mod.rs 107-152, find_id3v1 with [read = false]: the position left and whether a tag was found.
    Seeking to 128 bytes before the end fails on shorter files. *)
Definition find_id3v1 (data : bytes) : N * bool :=
  if lenN data <? 128 then (lenN data, false)
  else
    let pos := lenN data - 128 in
    if list_eqb (takeN 3 (dropN pos data)) TAG then (pos, true) else (lenN data, false).

(** write.rs 15-45, write_id3v1: the file operations performed. *)
Definition write_id3v1 (data : bytes) (t : id3v1) (lossy : bool) : res v1_error (list fop) :=
  let '(pos, found) := find_id3v1 data in
  if v1_is_empty t && found then Ok [OpTrunc (lenN data - 128)]
  else let? enc := v1_encode t lossy in Ok [OpWrite pos enc].

(** tag.rs 139-214, the accessors that do more than store a value. *)
Definition v1_genre_str (t : id3v1) : option str :=
  match v1_genre t with Some g => nth_error GENRES (N.to_nat g) | None => None end.
Fixpoint genre_index (i : N) (gs : list str) (g : str) : option N :=
  match gs with
  | [] => None
  | x :: gs' => if eq_ignore_case x g then Some i else genre_index (i + 1) gs' g
  end.
Definition v1_set_genre (g : str) (t : id3v1) : id3v1 :=
  match genre_index 0 GENRES g with
  | Some i => mkV1 (v1_title t) (v1_artist t) (v1_album t) (v1_year t) (v1_comment t) (v1_track t) (Some (i mod 256))
  | None => t
  end.
Definition v1_set_track (n : N) (t : id3v1) : id3v1 :=
  mkV1 (v1_title t) (v1_artist t) (v1_album t) (v1_year t) (v1_comment t) (Some (n mod 256)) (v1_genre t).
Fixpoint resize_comment (len : N) (v : str) : str :=
  match v with
  | [] => []
  | c :: v' => if 28 <? len + lenN (utf8_char c) then [] else c :: resize_comment (len + lenN (utf8_char c)) v'
  end.
Definition v1_set_comment (v : str) (t : id3v1) : id3v1 :=
  mkV1 (v1_title t) (v1_artist t) (v1_album t) (v1_year t) (Some (resize_comment 0 v)) (v1_track t) (v1_genre t).
