(** Model of lofty/src/mp4/properties.rs and of the part of mp4/read/mod.rs that calls it. Readers as in [Mp4Model.v]. An audio object
    type is its number. The count of bytes that the loops compare with the size of the parent is a u64 and taken not to overflow; sizes of
    allocations are not limited. Loops carry fuel, running out of it is [Panic]. *)
From Verif Require Import Base Str Mode MathModel Mp4Model.
From Verif Require FlacModel.

Inductive codec := AAC | ALAC | MP3 | FLAC.
(** lines 132-185 *)
Definition OBJECT_TYPES : list N := [1; 2; 3; 4; 5; 6; 7; 8; 9; 12; 13; 14; 15; 16; 17; 19; 20; 21; 22; 23; 24; 25; 26; 27; 28; 29; 30;
  32; 33; 34; 35; 36; 37; 38; 39; 40; 41; 42; 43; 44; 45; 46].
(** lines 192-204; milliseconds *)
Record mp4_props := mkMp { q_codec : option codec; q_type : option N; q_duration : N; q_overall : option N; q_audio : option N; q_rate : option N;
  q_depth : option N; q_channels : option N; q_drm : bool; q_ftyp : str }.
Definition props_default : mp4_props := mkMp None None 0 None None None None None false [].
Definition set_codec (x : option codec) (p : mp4_props) : mp4_props := mkMp x (q_type p) (q_duration p) (q_overall p) (q_audio p) (q_rate p) (q_depth p) (q_channels p) (q_drm p) (q_ftyp p).
Definition set_type (x : option N) (p : mp4_props) : mp4_props := mkMp (q_codec p) x (q_duration p) (q_overall p) (q_audio p) (q_rate p) (q_depth p) (q_channels p) (q_drm p) (q_ftyp p).
Definition set_duration (x : N) (p : mp4_props) : mp4_props := mkMp (q_codec p) (q_type p) x (q_overall p) (q_audio p) (q_rate p) (q_depth p) (q_channels p) (q_drm p) (q_ftyp p).
Definition set_overall (x : option N) (p : mp4_props) : mp4_props := mkMp (q_codec p) (q_type p) (q_duration p) x (q_audio p) (q_rate p) (q_depth p) (q_channels p) (q_drm p) (q_ftyp p).
Definition set_audio (x : option N) (p : mp4_props) : mp4_props := mkMp (q_codec p) (q_type p) (q_duration p) (q_overall p) x (q_rate p) (q_depth p) (q_channels p) (q_drm p) (q_ftyp p).
Definition set_rate (x : option N) (p : mp4_props) : mp4_props := mkMp (q_codec p) (q_type p) (q_duration p) (q_overall p) (q_audio p) x (q_depth p) (q_channels p) (q_drm p) (q_ftyp p).
Definition set_depth (x : option N) (p : mp4_props) : mp4_props := mkMp (q_codec p) (q_type p) (q_duration p) (q_overall p) (q_audio p) (q_rate p) x (q_channels p) (q_drm p) (q_ftyp p).
Definition set_channels (x : option N) (p : mp4_props) : mp4_props := mkMp (q_codec p) (q_type p) (q_duration p) (q_overall p) (q_audio p) (q_rate p) (q_depth p) x (q_drm p) (q_ftyp p).
Definition set_drm (x : bool) (p : mp4_props) : mp4_props := mkMp (q_codec p) (q_type p) (q_duration p) (q_overall p) (q_audio p) (q_rate p) (q_depth p) (q_channels p) x (q_ftyp p).
Definition set_ftyp (x : str) (p : mp4_props) : mp4_props := mkMp (q_codec p) (q_type p) (q_duration p) (q_overall p) (q_audio p) (q_rate p) (q_depth p) (q_channels p) (q_drm p) x.

(** ** lines 285-365: the first track with audio. [minf] is not skipped. *)
Record track := mkTk { t_audio : bool; t_mdhd : option atom_info; t_minf : option atom_info }.
Fixpoint mdia_loop (fuel : nat) (data : bytes) (m : pmode) (limit seen : N) (r : reader) (t : track) : res mp4_error (track * reader) :=
  if limit <=? seen then Ok (t, r) else
  match fuel with
  | O => Panic
  | S fuel =>
      let? (o, r) := next data m r in
      match o with
      | None => Ok (t, r)
      | Some a =>
          let seen := seen + a_len a in
          if is_fourcc ($"mdhd") (a_ident a) then
            let? r := skip_atom (a_ext a) (a_len a) r in mdia_loop fuel data m limit seen r (mkTk (t_audio t) (Some a) (t_minf t))
          else if is_fourcc ($"hdlr") (a_ident a) then
            if a_len a <? 20 then let? r := skip_atom (a_ext a) (a_len a) r in mdia_loop fuel data m limit seen r t
            else
              let? r := seek_cur 8 r in
              let? (h, r) := rd_exact data 4 r in
              let? r := skip_atom (a_ext a) (a_len a - 12) r in
              mdia_loop fuel data m limit seen r (mkTk (t_audio t || list_eqb h ($"soun")) (t_mdhd t) (t_minf t))
          else if is_fourcc ($"minf") (a_ident a) then mdia_loop fuel data m limit seen r (mkTk (t_audio t) (t_mdhd t) (Some a))
          else let? r := skip_atom (a_ext a) (a_len a) r in mdia_loop fuel data m limit seen r t
      end
  end.
Fixpoint traks_loop (data : bytes) (m : pmode) (traks : list atom_info) (r : reader) (t : track) : res mp4_error (track * reader) :=
  match traks with
  | [] => Ok (t, r)
  | x :: l =>
      if t_audio t then Ok (t, r) else
      let? (t, r) := mdia_loop (S (length data)) data m (a_len x) 8 (seek_start (a_start x + 8) r) (mkTk false None None) in
      traks_loop data m l r t
  end.
Definition find_audio_trak (data : bytes) (m : pmode) (traks : list atom_info) (r : reader) : res mp4_error (atom_info * option atom_info * reader) :=
  let? (t, r) := traks_loop data m traks r (mkTk false None None) in
  if negb (t_audio t) then Err (MMessage 10) else
  match t_mdhd t with None => Err (MMessage 11) | Some x => Ok (x, t_minf t, r) end.

(** ** lines 367-411: time scale and duration *)
Definition mdhd_parse (data : bytes) (r : reader) : res mp4_error (N * N * reader) :=
  let? (version, r) := rd_be_own data 1 r in
  let? (_f, r) := rd_be_own data 3 r in
  let w := if version =? 1 then 8 else 4 in
  let? (_c, r) := rd_be_own data w r in
  let? (_m, r) := rd_be_own data w r in
  let? (timescale, r) := rd_be_own data 4 r in
  let? (duration, r) := rd_be_own data w r in
  Ok (timescale, duration, r).
(** ** lines 413-462: the durations of the entries *)
Fixpoint stts_entries (fuel : nat) (data : bytes) (count : N) (r : reader) : res mp4_error (list N * reader) :=
  if count =? 0 then Ok ([], r) else
  match fuel with
  | O => Panic
  | S fuel =>
      let? (_n, r) := rd_be data 4 r in
      let? (d, r) := rd_be data 4 r in
      let? (l, r) := stts_entries fuel data (count - 1) r in
      Ok (d :: l, r)
  end.
Definition stts_parse (data : bytes) (r : reader) : res mp4_error (list N * reader) :=
  let? (_v, r) := rd_be data 4 r in
  let? (count, r) := rd_be data 4 r in
  stts_entries (S (length data)) data count r.
(** ** lines 464-547: the content of [stsd] and [stts]. Freeform atoms are not skipped. *)
Fixpoint stbl_loop (fuel : nat) (data : bytes) (m : pmode) (limit seen : N) (r : reader) (stsd : option bytes) (stts : option (list N))
  : res mp4_error (option bytes * option (list N) * reader) :=
  if limit <=? seen then Ok (stsd, stts, r) else
  match fuel with
  | O => Panic
  | S fuel =>
      let? (o, r) := next data m r in
      match o with
      | None => Ok (stsd, stts, r)
      | Some a =>
          let seen := seen + a_len a in
          match a_ident a with
          | Freeform _ _ => stbl_loop fuel data m limit seen r stsd stts
          | Fourcc f =>
              if list_eqb f ($"stsd") then let? (c, r) := rd_exact data (a_len a - 8) r in stbl_loop fuel data m limit seen r (Some c) stts
              else if list_eqb f ($"stts") then let? (l, r) := stts_parse data r in stbl_loop fuel data m limit seen r stsd (Some l)
              else let? r := skip_atom (a_ext a) (a_len a) r in stbl_loop fuel data m limit seen r stsd stts
          end
      end
  end.
Definition minf_parse (data : bytes) (m : pmode) (len : N) (r : reader) : res mp4_error (option (bytes * option (list N)) * reader) :=
  let? (o, r) := find_child (S (length data)) data len ($"stbl") m r in
  match o with
  | None => Ok (None, r)
  | Some stbl =>
      let? (stsd, stts, r) := stbl_loop (S (length data)) data m (a_len stbl) 8 r None None in
      Ok (match stsd with Some c => Some (c, stts) | None => None end, r)
  end.

(** ** lines 1042-1064: the tag of a descriptor; up to four bytes of size *)
Fixpoint size_bytes (n : nat) (data : bytes) (r : reader) : res mp4_error reader :=
  match n with
  | O => Ok r
  | S n => let? (b, r) := rd_be data 1 r in if N.land b 0x80 =? 0 then Ok r else size_bytes n data r
  end.
Definition descriptor (data : bytes) (r : reader) : res mp4_error (N * reader) :=
  let? (tag, r) := rd_be data 1 r in
  let? r := size_bytes 4 data r in Ok (tag, r).

(** ** lines 763-931 *)
Definition SAMPLE_RATES : list N := [96000; 88200; 64000; 48000; 44100; 32000; 24000; 22050; 16000; 12000; 11025; 8000; 7350; 0; 0].
Definition codec_of (b : N) : option codec :=
  if existsb (N.eqb b) [0x40; 0x41; 0x66; 0x67; 0x68] then Some AAC else if existsb (N.eqb b) [0x69; 0x6B] then Some MP3 else None.
Definition specific_config (data : bytes) (r : reader) (p : mp4_props) : res mp4_error mp4_props :=
  let? (a, r) := rd_be_own data 1 r in
  let? (b, r) := rd_be_own data 1 r in
  let ext := N.shiftr a 3 =? 31 in
  let object_type := if ext then 32 + N.lor (N.land a 7) (N.shiftr b 5) else N.shiftr a 3 in
  let index := if ext then N.land (N.shiftr b 1) 0xF else N.lor (N.shiftl (N.land a 7) 1) (N.shiftr b 7) in
  let conf := N.land (N.shiftr b 3) 0xF in
  if negb (existsb (N.eqb object_type) OBJECT_TYPES) then Err (MMessage 12) else
  let p := set_type (Some object_type) p in
  let? (p, conf, r) :=
    (if index =? 15 then
       let? (e, r) := rd_be_own data 3 r in
       let? (rate, conf, r) :=
         (if ext then Ok (N.shiftr e 1, N.land (N.shiftr e 4) 0xF, r)
          else let? (c, r) := rd_be_own data 1 r in Ok (N.shiftl e 1, N.land (N.lor (N.land e 0x80) (N.shiftr c 1)) 0xF, r)) in
       Ok (if 0 <? rate then set_rate (Some rate) p else p, conf, r)
     else
       let p := set_rate (Some (nth (N.to_nat index) SAMPLE_RATES 0)) p in
       if ext then let? (c, r) := rd_be_own data 1 r in Ok (p, N.lor (N.land b 1) (N.land c 0xE0), r)
       else Ok (p, conf, r)) in
  let p := if 0 <? conf then set_channels (Some conf) p else p in
  if object_type =? 36 then
    let? (id, r) := rd_exact data 5 r in
    if list_eqb id (0 :: $"ALS" ++ [0]) then
      let? (rate, r) := rd_be_own data 4 r in
      let p := set_rate (Some rate) p in
      let? r := seek_cur 4 r in
      let? (c, r) := rd_be_own data 2 r in
      if c mod 256 =? 255 then Panic else Ok (set_channels (Some (c mod 256 + 1)) p)
    else Ok p
  else Ok p.
Definition mp4a_properties (data : bytes) (m : pmode) (r : reader) (p : mp4_props) : res mp4_error mp4_props :=
  let p := set_codec (Some AAC) p in
  match next data m r with
  | Panic => Panic
  | Err _ | Ok (None, _) => Ok p
  | Ok (Some esds, r) =>
      if negb (is_fourcc ($"esds") (a_ident esds)) then Ok p else
      let? (v, r) := rd_be_own data 4 r in
      if negb (v =? 0) then Ok p else
      let? (tag, r) := descriptor data r in
      if negb (tag =? 3) then Ok p else
      let? r := seek_cur 3 r in
      let? (tag, r) := descriptor data r in
      if negb (tag =? 4) then Ok p else
      let? (c, r) := rd_be_own data 1 r in
      let p := set_codec (codec_of c) p in
      let? r := seek_cur 8 r in
      let? (avg, r) := rd_be_own data 4 r in
      let? (tag, r) := descriptor data r in
      let? p := (if tag =? 5 then specific_config data r p else Ok p) in
      Ok (if (0 <? avg) || (q_duration p =? 0) then set_audio (Some (avg / 1000)) p else p)
  end.
(** lines 933-984. [lenN data] is the length of the reader. *)
Definition alac_properties (data : bytes) (m : pmode) (r : reader) (p : mp4_props) : res mp4_error mp4_props :=
  if negb (lenN data =? 80) then Ok p else
  match next data m r with
  | Panic => Panic
  | Err _ | Ok (None, _) => Ok p
  | Ok (Some alac, r) =>
      if negb (is_fourcc ($"alac") (a_ident alac)) then Ok p else
      let p := set_codec (Some ALAC) p in
      let? r := seek_cur 9 r in
      let? (depth, r) := rd_be_own data 1 r in
      let p := set_depth (Some depth) p in
      let? r := seek_cur 3 r in
      let? (channels, r) := rd_be_own data 1 r in
      let p := set_channels (Some channels) p in
      let? r := seek_cur 6 r in
      let? (b, r) := rd_be_own data 4 r in
      let p := set_audio (Some (b / 1000)) p in
      let? (rate, r) := rd_be_own data 4 r in
      Ok (set_rate (Some rate) p)
  end.
(** lines 986-1027, flac/block.rs 32-63 *)
Definition flac_properties (data : bytes) (m : pmode) (r : reader) (p : mp4_props) : res mp4_error mp4_props :=
  let p := set_codec (Some FLAC) p in
  let? (o, r) := next data m r in
  match o with
  | None => Ok p
  | Some dfla =>
      if negb (is_fourcc ($"dfLa") (a_ident dfla)) then Ok p else
      let? r := seek_cur 4 r in
      let? n := msub (a_len dfla) 12 in
      if n <? 18 then Ok p else
      let? (_b, r) := rd_be data 1 r in
      let? (size, r) := rd_be data 3 r in
      let? (c, r) := rd_exact data size r in
      match FlacModel.flac_read_properties c 0 0 with
      | Ok f => Ok (set_channels (Some (FlacModel.fp_channels f)) (set_depth (Some (FlacModel.fp_depth f)) (set_rate (Some (FlacModel.fp_rate f)) p)))
      | Err _ => Err MEof
      | Panic => Panic
      end
  end.
(** ** lines 551-667: the sample entries *)
Fixpoint stsd_loop (fuel : nat) (data : bytes) (m : pmode) (count : N) (r : reader) (p : mp4_props) : res mp4_error mp4_props :=
  if count =? 0 then Ok p else
  match fuel with
  | O => Panic
  | S fuel =>
      let? (o, r) := next data m r in
      match o with
      | None => Err (MMessage 13)
      | Some a =>
          if a_ext a then Err (MMessage 14) else
          match a_ident a with
          | Freeform _ _ => Err (MMessage 15)
          | Fourcc f =>
              let? r := seek_cur 8 r in
              let? (version, r) := rd_be_own data 2 r in
              if 2 <? version then Err (MMessage 16) else
              let? r := seek_cur 6 r in
              let? (ch, r) := rd_be_own data 2 r in
              let p := set_channels (Some (ch mod 256)) p in
              let? r := seek_cur 6 r in
              let? (rate, r) := rd_be_own data 4 r in
              let p := set_rate (Some (N.shiftr rate 16)) p in
              let? r :=
                (if version =? 1 then seek_cur 16 r
                 else if version =? 2 then let? (n, r) := rd_be_own data 4 r in seek_cur (32 + Z.of_N n) r
                 else Ok r) in
              if list_eqb f ($"mp4a") then mp4a_properties data m r p
              else if list_eqb f ($"alac") then alac_properties data m r p
              else if list_eqb f ($"fLaC") then flac_properties data m r p
              else
                let p := if list_eqb f ($"drms") then set_drm true p else p in
                let? r := skip_atom false (r_pos r - a_start a) r in
                stsd_loop fuel data m (count - 1) r p
          end
      end
  end.
Definition read_stsd (data : bytes) (m : pmode) (p : mp4_props) : res mp4_error mp4_props :=
  let? r := seek_cur 4 (atom_reader data) in
  let? (count, r) := rd_be_own data 4 r in
  stsd_loop (S (length data)) data m count r p.
(** ** lines 1029-1049 *)
Fixpoint mdat_loop (fuel : nat) (data : bytes) (m : pmode) (r : reader) : res mp4_error N :=
  match fuel with
  | O => Panic
  | S fuel =>
      match next data m r with
      | Panic => Panic
      | Err _ | Ok (None, _) => Err (MMessage 17)
      | Ok (Some a, r) =>
          if is_fourcc ($"mdat") (a_ident a) then Ok (a_len a - 8)
          else let? r := skip_atom (a_ext a) (a_len a) r in mdat_loop fuel data m r
      end
  end.
Definition mdat_length (data : bytes) (m : pmode) : res mp4_error N := mdat_loop (S (length data)) data m (atom_reader data).

(** ** lines 669-761 *)
Definition bit_rates (file_len mdat_len timescale duration : N) (stts : option (list N)) (p : mp4_props) : res mp4_error mp4_props :=
  let p := match stts with
           | Some [1] | None => p
           | Some _ => set_audio (Some ((mdat_len * 8 * timescale / duration) mod 2 ^ 32 / 1000)) p
           end in
  if q_duration p =? 0 then Ok p else
  if U64_MAX <? file_len * 8 then Panic else
  let p := set_overall (Some ((file_len * 8 / q_duration p) mod 2 ^ 32)) p in
  match q_audio p with
  | None | Some 0 => if U64_MAX <? mdat_len * 8 then Panic else Ok (set_audio (Some ((mdat_len * 8 / q_duration p) mod 2 ^ 32)) p)
  | Some _ => Ok p
  end.
Definition mp4_properties (data : bytes) (m : pmode) (traks : list atom_info) : res mp4_error mp4_props :=
  let? (mdhd, minf, r) := find_audio_trak data m traks (atom_reader data) in
  let? (timescale, duration, r) := mdhd_parse data (seek_start (a_start mdhd + 8) r) in
  let? p :=
    (if 0 <? timescale then
       if U64_MAX <? duration * 1000 then Panic else
       match div_round U64_MAX (duration * 1000) timescale with Ok d => Ok (set_duration d props_default) | _ => Panic end
     else Ok props_default) in
  match minf with
  | None => Ok p
  | Some minf =>
      let? (x, r) := minf_parse data m (a_len minf) (seek_start (a_start minf + 8) r) in
      match x with
      | None => Ok p
      | Some (stsd, stts) =>
          let? p := read_stsd stsd m p in
          if duration =? 0 then Ok p else
          match mdat_length data m with
          | Panic => Panic
          | Err e => if is_strict m then Err e else Ok p
          | Ok mdat_len => bit_rates (lenN data) mdat_len timescale duration stts p
          end
      end
  end.
(** read/mod.rs 49-84 *)
Definition mp4_read_all (data : bytes) (o : mopts) : res mp4_error (option (list atom) * mp4_props) :=
  let? (brand, traks, ilst) := mp4_read data o in
  let? p := (if mo_props o then mp4_properties data (mo_mode o) traks else Ok props_default) in
  Ok (ilst, set_ftyp brand p).
