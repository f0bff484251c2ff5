(** Model of lofty/src/file/file_type.rs, probe.rs and resolve.rs: the type of a file by its content, its name, and by registered resolvers.
    Simplified: the inner reader is a cursor over bytes that never fails (positions are not limited to 64 bits); paths are
    Unix paths of scalar values; the map of resolvers is a list in the order in which it happens to be visited. *)
From Verif Require Import Base Str TagType SynchModel MpegModel.

(** ** file_type.rs 51-78 *)
Inductive ftype := FAac | FAiff | FApe | FFlac | FMpeg | FMp4 | FMpc | FOpus | FVorbis | FSpeex | FWav | FWavPack | FCustom (name : list N).
(** tag/tag_type.rs 14-36 *)
Inductive support := Unsupported | ReadOnly | ReadWrite.
Definition is_readable (s : support) : bool := match s with Unsupported => false | _ => true end.
Definition is_writable (s : support) : bool := match s with ReadWrite => true | _ => false end.
(** resolve.rs 19-33 *)
Record resolver := mkRs { rs_ext : option (list N); rs_primary : tag_type; rs_support : tag_type -> support; rs_guess : bytes -> option ftype }.
(** The registered resolvers by name and the global option [use_custom_resolvers] *)
Record registry := mkRg { rg_use : bool; rg_map : list (list N * resolver) }.
Definition no_resolvers : registry := mkRg true [].
(** resolve.rs 41-52; [None]: panic *)
Definition lookup (g : registry) (name : list N) : option resolver :=
  match find (fun e => list_eqb (fst e) name) (rg_map g) with Some (_, r) => Some r | None => None end.
(** resolve.rs 114-126; [None]: panic *)
Definition register (g : registry) (name : list N) (r : resolver) : option registry :=
  match lookup g name with Some _ => None | None => Some (mkRg (rg_use g) ((name, r) :: rg_map g)) end.

(** ** file_type.rs 103-117 *)
Definition primary_tag_type (g : registry) (f : ftype) : res unit tag_type :=
  match f with
  | FAac | FAiff | FMpeg | FWav => Ok Id3v2
  | FApe | FMpc | FWavPack => Ok Ape
  | FFlac | FOpus | FVorbis | FSpeex => Ok VorbisComments
  | FMp4 => Ok Mp4Ilst
  | FCustom c => match lookup g c with Some r => Ok (rs_primary r) | None => Panic end
  end.
(** The attributes [supported_formats] of the seven tags (ape/tag/mod.rs 94, id3/v1/tag.rs 83, id3/v2/tag.rs 116, mp4/ilst/mod.rs 131,
    ogg/tag.rs 79, iff/wav/tag/mod.rs 62, iff/aiff/tag/mod.rs 67): formats, and those of them that are read-only
    (lofty_attr/src/lofty_tag.rs 60-95). *)
Definition supported_formats (t : tag_type) : list ftype * list ftype :=
  match t with
  | Ape => ([FApe; FMpeg; FMpc; FWavPack], [])
  | Id3v1 => ([FAac; FApe; FMpeg; FWavPack; FMpc], [FMpc])
  | Id3v2 => ([FAac; FAiff; FMpeg; FWav; FApe; FFlac; FMpc], [FApe; FFlac; FMpc])
  | Mp4Ilst => ([FMp4], [])
  | VorbisComments => ([FFlac; FOpus; FSpeex; FVorbis], [])
  | RiffInfo => ([FWav], [])
  | AiffText => ([FAiff], [])
  end.
Definition ft_eqb (a b : ftype) : bool :=
  match a, b with
  | FAac, FAac | FAiff, FAiff | FApe, FApe | FFlac, FFlac | FMpeg, FMpeg | FMp4, FMp4 | FMpc, FMpc | FOpus, FOpus | FVorbis, FVorbis | FSpeex, FSpeex
  | FWav, FWav | FWavPack, FWavPack => true
  | FCustom a, FCustom b => list_eqb a b
  | _, _ => false
  end.
(** lines 133-176 *)
Definition tag_support (g : registry) (f : ftype) (t : tag_type) : res unit support :=
  match f with
  | FCustom c => match lookup g c with Some r => Ok (rs_support r t) | None => Panic end
  | _ =>
      let (all, ro) := supported_formats t in
      Ok (if existsb (ft_eqb f) all then if existsb (ft_eqb f) ro then ReadOnly else ReadWrite else Unsupported)
  end.

(** ** file_type.rs 40-44 *)
Definition EXTENSIONS : list (list N) :=
  [$"aac"; $"ape"; $"aiff"; $"aif"; $"afc"; $"aifc"; $"mp3"; $"mp2"; $"mp1"; $"wav"; $"wv"; $"opus"; $"flac";
   $"ogg"; $"mp4"; $"m4a"; $"m4b"; $"m4p"; $"m4r"; $"m4v"; $"3gp"; $"mpc"; $"mp+"; $"mpp"; $"spx"].
(** lines 184-226 *)
Definition ext_table : list (list (list N) * ftype) :=
  [([$"aac"], FAac); ([$"ape"], FApe); ([$"aiff"; $"aif"; $"afc"; $"aifc"], FAiff); ([$"mp3"; $"mp2"; $"mp1"], FMpeg); ([$"wav"; $"wave"], FWav);
   ([$"wv"], FWavPack); ([$"opus"], FOpus); ([$"flac"], FFlac); ([$"ogg"], FVorbis); ([$"mp4"; $"m4a"; $"m4b"; $"m4p"; $"m4r"; $"m4v"; $"3gp"], FMp4);
   ([$"mpc"; $"mp+"; $"mpp"], FMpc); ([$"spx"], FSpeex)].
Definition from_ext (g : registry) (ext : list N) : option ftype :=
  let ext := lower ext in
  match (if rg_use g then find (fun e => match rs_ext (snd e) with Some x => list_eqb x ext | None => false end) (rg_map g) else None) with
  | Some (name, _) => Some (FCustom name)
  | None => match find (fun e => existsb (list_eqb ext) (fst e)) ext_table with Some (_, f) => Some f | None => None end
  end.
(** std: [Path::file_name] and [Path::extension] *)
Fixpoint split_on (sep : N) (s : list N) (cur : list N) : list (list N) :=
  match s with [] => [rev cur] | c :: s => if c =? sep then rev cur :: split_on sep s [] else split_on sep s (c :: cur) end.
Definition file_name (p : list N) : option (list N) :=
  match rev (filter (fun c => negb (list_eqb c [] || list_eqb c [46])) (split_on 47 p [])) with
  | [] => None
  | c :: _ => if list_eqb c [46; 46] then None else Some c
  end.
(** The part behind the last dot, if there is something before the dot *)
Fixpoint after_dot (s : list N) (cur : list N) : option (list N * list N) :=
  match s with [] => None | c :: s => if c =? 46 then Some (rev s, cur) else after_dot s (c :: cur) end.
Definition extension (p : list N) : option (list N) :=
  match file_name p with
  | None => None
  | Some n => match after_dot (rev n) [] with Some ([], _) => None | Some (_, e) => Some e | None => None end
  end.
(** lines 230-238 *)
Definition from_path (g : registry) (p : list N) : option ftype := match extension p with Some e => from_ext g e | None => None end.

(** ** The content *)
Definition starts_with (p buf : bytes) : bool := list_eqb (takeN (lenN p) buf) p && (lenN p <=? lenN buf).
Definition slice (a b : N) (buf : bytes) : bytes := takeN (b - a) (dropN a buf).
(** lines 306-379; the first byte exists *)
Definition quick_type_guess (buf : bytes) : option ftype :=
  match buf with
  | [] => None
  | b0 :: _ =>
      let n := lenN buf in
      if (b0 =? 77) && starts_with ($"MAC") buf then Some FApe else
      if (b0 =? 255) && (2 <=? n) && verify_frame_sync b0 (nth 1 buf 0) then
        (if negb (N.land (nth 1 buf 0) 0x10 =? 0) && (N.land (nth 1 buf 0) 6 =? 0) then Some FAac else Some FMpeg) else
      if (b0 =? 70) && (12 <=? n) && list_eqb (slice 0 4 buf) ($"FORM") then
        (if list_eqb (slice 8 12 buf) ($"AIFF") || list_eqb (slice 8 12 buf) ($"AIFC") then Some FAiff else None) else
      if (b0 =? 79) && (36 <=? n) && list_eqb (slice 0 4 buf) ($"OggS") then
        (if list_eqb (slice 29 35 buf) ($"vorbis") then Some FVorbis
         else if list_eqb (slice 28 36 buf) ($"OpusHead") then Some FOpus
         else if list_eqb (slice 28 36 buf) ($"Speex   ") then Some FSpeex
         else None) else
      if (b0 =? 102) && starts_with ($"fLaC") buf then Some FFlac else
      if (b0 =? 82) && (12 <=? n) && list_eqb (slice 0 4 buf) ($"RIFF") then
        (if list_eqb (slice 8 12 buf) ($"WAVE") then Some FWav else None) else
      if (b0 =? 119) && (4 <=? n) && list_eqb (slice 0 4 buf) ($"wvpk") then Some FWavPack else
      if (8 <=? n) && list_eqb (slice 4 8 buf) ($"ftyp") then Some FMp4 else
      if starts_with ($"MPCK") buf || starts_with ($"MP+") buf then Some FMpc else None
  end.
(** lines 277-304, 386-393 *)
Inductive guess_result := Determined (f : ftype) | PrecededById3 (size : N) | PrecededByJunk.
Definition from_buffer_inner (buf : bytes) : option guess_result :=
  match buf with
  | [] => None
  | _ =>
      match quick_type_guess buf with
      | Some f => Some (Determined f)
      | None =>
          if (10 <=? lenN buf) && list_eqb (slice 0 3 buf) ($"ID3") then Some (PrecededById3 (unsynch32 (be_dec (slice 6 10 buf))))
          else Some PrecededByJunk
      end
  end.
(** lines 265-272 *)
Definition from_buffer (buf : bytes) : option ftype := match from_buffer_inner buf with Some (Determined f) => Some f | _ => None end.

(** ** probe.rs. A reader: content and position *)
Record cursor := mkCu { u_data : bytes; u_pos : N }.
Definition rest (u : cursor) : bytes := dropN (u_pos u) (u_data u).
Definition to (u : cursor) (pos : N) : cursor := mkCu (u_data u) pos.
Definition DEFAULT_MAX_JUNK_BYTES : N := 1024.
(** lines 404-425; afterwards the reader is behind the frame sync, or behind what was searched *)
Definition check_mpeg_or_aac (junk : N) (u : cursor) : option ftype * cursor :=
  let window := takeN junk (rest u) in
  match search_for_frame_sync window with
  | None => (None, to u (u_pos u + lenN window))
  | Some i =>
      let b := nth 1 (dropN i (rest u)) 0 in
      (Some (if negb (N.land b 0x10 =? 0) && (N.land b 6 =? 0) then FAac else FMpeg), to u (u_pos u + i + 2))
  end.
(** lines 322-401 *)
Definition guess_inner (g : registry) (junk : N) (u : cursor) : res unit (option ftype * cursor) :=
  let start := u_pos u in
  let buf := takeN 36 (rest u) in
  match (if rg_use g then find (fun e => match rs_guess (snd e) buf with Some _ => true | None => false end) (rg_map g) else None) with
  | Some (_, r) => Ok (rs_guess r buf, u)
  | None =>
      match from_buffer_inner buf with
      | None => Ok (None, u)
      | Some (Determined f) => Ok (Some f, u)
      | Some (PrecededById3 size) =>
          if 2 ^ 32 <=? 10 + size then Panic else
          let u := to u (start + (10 + size)) in
          let got := takeN 4 (rest u) in
          let ident := got ++ repeat 0 (4 - length got) in
          let (f, u) :=
            if list_eqb (takeN 3 ident) ($"MAC") then (Some FApe, u)
            else if list_eqb ident ($"fLaC") then (Some FFlac, u)
            else if list_eqb ident ($"MPCK") || list_eqb (takeN 3 ident) ($"MP+") then (Some FMpc, u)
            else check_mpeg_or_aac junk u in
          Ok (f, to u start)
      | Some PrecededByJunk =>
          let (f, u) := check_mpeg_or_aac junk u in Ok (f, to u start)
      end
  end.
(** lines 82-87, 306-319 *)
Record probe := mkPb { pb_in : cursor; pb_junk : option N; pb_type : option ftype }.
Definition probe_new (u : cursor) : probe := mkPb u None None.
Definition set_file_type (f : ftype) (p : probe) : probe := mkPb (pb_in p) (pb_junk p) (Some f).
Definition set_options (junk : N) (p : probe) : probe := mkPb (pb_in p) (Some junk) (pb_type p).
Definition guess_file_type (g : registry) (p : probe) : res unit probe :=
  let junk := match pb_junk p with Some n => n | None => DEFAULT_MAX_JUNK_BYTES end in
  let? (f, u) := guess_inner g junk (pb_in p) in
  Ok (mkPb u (pb_junk p) (match f with Some _ => f | None => pb_type p end)).
(** util/io.rs 201-211 (VerifiedFile::new): the type of a file to be written *)
Definition verified (g : registry) (u : cursor) : res unit (ftype * cursor) :=
  let? p := guess_file_type g (probe_new u) in
  match pb_type p with Some f => Ok (f, pb_in p) | None => Err tt end.
(** file/tagged_file.rs (TaggedFile::read_from): the options are set behind the guess. The type as which the file is read, and the reader *)
Definition tagged_read_type (g : registry) (junk : N) (u : cursor) : res unit (ftype * cursor) :=
  let? p := guess_file_type g (probe_new u) in
  let p := set_options junk p in
  match pb_type p with Some f => Ok (f, pb_in p) | None => Err tt end.
