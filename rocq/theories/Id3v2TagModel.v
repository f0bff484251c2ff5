(** Model of lofty/src/id3/v2/tag.rs (Id3v2Tag: the accessors, and the conversion to Tag), tag/conversion.rs (the conversion from
    Tag, owned and by reference), util/pairs.rs and util/mappings.rs. The custom provider of ratings is a parameter, as in the
    model of ratings. A HashMap or HashSet is iterated in an unknown order: [order] is the function that gives it. Equal frames
    have equal hashes, so a HashSet of frames keeps the first of several equal ones.
    Simplified: a COMM or USLT frame is known to have that id (its fields are private and it is made with it), so the key of its
    items is not looked up; the companion of a Tag is either an Id3v2Tag or something else. *)
From Verif Require Import TrimModel.
From Verif Require Export PopmModel FrameModel FrameReadModel FrameWriteModel ItemKeyModel TagModel.
From Verif Require ApeModel IlstModel.

Notation frames := (list frame).
(** tag.rs 321-385 *)
Definition text_frame (id s : str) : frame := FText (new_header id) UTF8 s.
Definition url_frame (id s : str) : frame := FUrl (new_header id) s.
Definition user_text_frame (desc s : str) : frame := FUserText (new_header ($"TXXX")) UTF8 desc s.
Definition comment_frame (lang : bytes) (desc s : str) : frame := FComment (new_header ($"COMM")) UTF8 lang desc s.
Definition unsync_frame (lang : bytes) (desc s : str) : frame := FUnsync (new_header ($"USLT")) UTF8 lang desc s.
Definition picture_frame (p : picture) : frame := FPicture (new_header ($"APIC")) UTF8 p.
Definition time_frame (id : str) (t : timestamp) : frame := FTime (new_header id) UTF8 t.
Definition ufid_frame (owner : str) (d : bytes) : frame := FUfid (new_header ($"UFID")) owner d.
Definition tipl_frame (l : list (str * str)) : frame := FKeyValue (new_header ($"TIPL")) UTF8 l.
Definition MUSICBRAINZ : str := $"http://musicbrainz.org".

(** ** Accessors *)
(** [str::split] at any of some characters *)
Fixpoint split_any (seps : list N) (s : str) : list str :=
  match s with
  | [] => [[]]
  | c :: s' => if existsb (N.eqb c) seps then [] :: split_any seps s'
               else match split_any seps s' with w :: ws => (c :: w) :: ws | [] => [[c]] end
  end.
(** lines 42-48 *)
Definition shown (v : id3v2_version) (s : str) : str :=
  if is_v4 v then map (fun c => if c =? 0 then 47 else c) s else s.
(** lines 50-75: title, artist, album *)
Definition acc_text (id : str) (t : id3v2_tag) : option str := option_map (shown (t_version t)) (fl_get_text (Valid id) (t_frames t)).
Definition with_frames (t : id3v2_tag) (l : frames) : id3v2_tag := mkT (t_version t) (t_flags t) l.
Definition tag_insert (f : frame) (t : id3v2_tag) : id3v2_tag := with_frames t (fst (fl_insert f (t_frames t))).
Definition acc_remove (id : str) (t : id3v2_tag) : id3v2_tag := with_frames t (fl_remove (Valid id) (t_frames t)).
Definition acc_set_text (id s : str) (t : id3v2_tag) : id3v2_tag := tag_insert (text_frame id s) t.
(** lines 202-214 *)
Definition split_num_pair (id : str) (t : id3v2_tag) : option N * option N :=
  match fl_get_text (Valid id) (t_frames t) with
  | Some s => let l := TagModel.filter_map (parse_uint U32_MAX) (split_any [0; 47] s) in (nth_error l 0, nth_error l 1)
  | None => (None, None)
  end.
Definition acc_number (id : str) (t : id3v2_tag) : option N := fst (split_num_pair id t).
Definition acc_total (id : str) (t : id3v2_tag) : option N := snd (split_num_pair id t).
(** util/pairs.rs 35-49 *)
Definition format_number_pair (n total : option N) : option str :=
  match n, total with
  | Some n, None => Some (to_dec n)
  | None, Some t => Some (to_dec 0 ++ [47] ++ to_dec t)
  | Some n, Some t => Some (to_dec n ++ [47] ++ to_dec t)
  | None, None => None
  end.
(** lines 225-237 *)
Definition insert_number_pair (id : str) (n total : option N) (t : id3v2_tag) : id3v2_tag :=
  match format_number_pair n total with Some s => tag_insert (text_frame id s) t | None => t end.
(** lines 397-456: track and disk *)
Definition acc_set_number (id : str) (n : N) (t : id3v2_tag) : id3v2_tag := insert_number_pair id (Some n) (acc_total id t) t.
Definition acc_set_total (id : str) (n : N) (t : id3v2_tag) : id3v2_tag := insert_number_pair id (acc_number id t) (Some n) t.
Definition acc_remove_total (id : str) (t : id3v2_tag) : id3v2_tag :=
  let t' := acc_remove id t in
  match acc_number id t with Some n => tag_insert (text_frame id (to_dec n)) t' | None => t' end.
(** lines 217-223, 458-481 *)
Definition tag_genres (t : id3v2_tag) : option (list str) := option_map (genres false) (fl_get_text (Valid ($"TCON")) (t_frames t)).
Fixpoint join (sep : str) (l : list str) : str :=
  match l with [] => [] | [x] => x | x :: l' => x ++ sep ++ join sep l' end.
Definition acc_genre (t : id3v2_tag) : option str :=
  match tag_genres t with Some (g :: gs) => Some (join ($" / ") (g :: gs)) | _ => None end.
(** lines 483-499 *)
Definition acc_date (t : id3v2_tag) : option timestamp :=
  match fl_get (Valid ($"TDRC")) (t_frames t) with Some (FTime _ _ d) => Some d | _ => None end.
Definition acc_set_date (d : timestamp) (t : id3v2_tag) : id3v2_tag := tag_insert (text_frame ($"TDRC") (ts_display d)) t.
(** lines 501-535 *)
Definition plain_comment (f : frame) : option str :=
  match f with FComment _ _ _ [] s => Some s | _ => None end.
Definition acc_comment (t : id3v2_tag) : option str := hd_error (TagModel.filter_map plain_comment (t_frames t)).
Fixpoint set_comment_loop (v : option str) (l : frames) : frames * option str :=
  match l with
  | [] => ([], v)
  | f :: l' =>
      match f with
      | FComment h e lang [] _ =>
          match v with
          | Some s => let '(r, v') := set_comment_loop None l' in (FComment h e lang [] s :: r, v')
          | None => set_comment_loop None l'
          end
      | _ => let '(r, v') := set_comment_loop v l' in (f :: r, v')
      end
  end.
Definition acc_set_comment (s : str) (t : id3v2_tag) : id3v2_tag :=
  let '(l, v) := set_comment_loop (Some s) (t_frames t) in
  with_frames t (match v with Some s => l ++ [comment_frame UNKNOWN_LANGUAGE [] s] | None => l end).
Definition acc_remove_comment (t : id3v2_tag) : id3v2_tag :=
  with_frames t (filter (fun f => match plain_comment f with Some _ => false | None => true end) (t_frames t)).

(** ** Conversion to Tag: lines 609-913 *)
(** lines 615-659 *)
Definition pair_number (s : str) : option str :=
  let s := trim s in match s with [] => None | _ => if is_some (parse_uint U32_MAX s) then Some s else None end.
(** [splitn(2, ..)] *)
Fixpoint split_two (seps : list N) (s : str) : str * option str :=
  match s with
  | [] => ([], None)
  | c :: s' => if existsb (N.eqb c) seps then ([], Some s') else let '(a, b) := split_two seps s' in (c :: a, b)
  end.
Definition text_item (k : item_key) (s : str) : tag_item := new_item k (VText s).
Definition split_pair (s : str) (number total : item_key) : option (list tag_item) :=
  let '(a, b) := split_two [0; 47] s in
  match pair_number a with
  | None => None
  | Some n =>
      match b with
      | None => Some [text_item number n]
      | Some b => match pair_number b with Some m => Some [text_item number n; text_item total m] | None => None end
      end
  end.
(** util/mappings.rs *)
Definition TIPL_MAPPINGS : list (item_key * str) :=
  [(KProducer, $"producer"); (KArranger, $"arranger"); (KEngineer, $"engineer"); (KMixDj, $"DJ-mix"); (KMixEngineer, $"mix")].
Definition tipl_key (s : str) : option item_key := option_map fst (find (fun e => list_eqb s (snd e)) TIPL_MAPPINGS).
Definition tipl_name (k : item_key) : option str := option_map snd (find (fun e => ik_eqb (fst e) k) TIPL_MAPPINGS).

(** What a frame gives to the tag, and what is left of it. *)
Record split_res := mkSplit { sp_items : list tag_item; sp_pictures : list picture; sp_left : option frame }.
Definition consumed (l : list tag_item) : split_res := mkSplit l [] None.
Definition retained (f : frame) : split_res := mkSplit [] [] (Some f).
Definition values (s : str) : list str := ApeModel.split_all 0 s.
Definition by_key (s : str) (f : frame) (its : item_key -> list tag_item) : split_res :=
  match from_key Id3v2 s with Some k => consumed (its k) | None => retained f end.
(** lines 815-828: the description is moved out by the first value *)
Definition lang_items (k : item_key) (lang : bytes) (desc : str) (l : list str) : list tag_item :=
  match l with
  | [] => []
  | s :: l' => mkItem lang desc k (VText s) :: map (fun s => mkItem lang [] k (VText s)) l'
  end.
Definition number_keys (id : str) : option (item_key * item_key) :=
  if list_eqb id ($"TRCK") then Some (KTrackNumber, KTrackTotal)
  else if list_eqb id ($"TPOS") then Some (KDiscNumber, KDiscTotal)
  else if list_eqb id ($"MVIN") then Some (KMovementNumber, KMovementTotal) else None.
(** lines 661-912 *)
Definition split_frame (custom : provider) (f : frame) : split_res :=
  let id := f_name f in
  match f with
  | FText _ _ s =>
      let plain := by_key id f (fun k => map (text_item k) (values s)) in
      match number_keys id with
      | Some (n, t) => match split_pair s n t with Some l => consumed l | None => plain end
      | None => if list_eqb id ($"TCON") then consumed (map (text_item KGenre) (genres false s)) else plain
      end
  | FKeyValue h e l =>
      if list_eqb id ($"TIPL") then
        let left := filter (fun p => negb (is_some (tipl_key (fst p)))) l in
        mkSplit (TagModel.filter_map (fun p => option_map (fun k => text_item k (snd p)) (tipl_key (fst p))) l) []
                (match left with [] => None | _ => Some (FKeyValue h e left) end)
      else retained f
  | FUserText _ _ d s => match d with [] => retained f | _ => by_key d f (fun k => map (text_item k) (values s)) end
  | FUserUrl _ _ d s =>
      match d with
      | [] => retained f
      | _ => if lenN (utf8_enc d) =? 4 then retained f
             else by_key d f (fun k => map (fun v => new_item k (VLocator v)) (values s))
      end
  | FUfid _ o d =>
      if list_eqb o MUSICBRAINZ then
        match decode_text Latin1 false (0, 0) d with
        | Ok (x, _) => consumed [text_item KMusicBrainzRecordingId (d_content x)]
        | _ => retained f
        end
      else retained f
  | FComment _ _ lang d s => consumed (lang_items KComment lang d (values s))
  | FUnsync _ _ lang d s => consumed (lang_items KUnsyncLyrics lang d (values s))
  | FPicture _ _ p => mkSplit [] [p] None
  | FTime _ _ t =>
      match from_key Id3v2 id with
      | Some k => match ts_verify t with Ok _ => consumed [text_item k (ts_display t)] | _ => retained f end
      | None => retained f
      end
  | FPopm _ email r c =>
      match popm_mapped custom email Id3v2 r c with
      | Some p => consumed [text_item KPopularimeter (popm_display p)]
      | None => retained f
      end
  | FUrl _ s => by_key id f (fun k => [new_item k (VLocator s)])
  | FBin _ _ | FRva2 _ _ _ | FOwne _ _ _ _ _ | FEtco _ _ _ | FPriv _ _ _ | FChap _ _ _ _ _ | FCtoc _ _ _ _ _ _ => retained f
  end.

Inductive companion := CId3v2 (t : id3v2_tag) | COther.
Notation gtag := (tag companion).
(** lines 918-926: the remainder and the tag *)
Definition split_tag (custom : provider) (t : id3v2_tag) : id3v2_tag * gtag :=
  let parts := map (split_frame custom) (t_frames t) in
  (with_frames t (TagModel.filter_map sp_left parts),
   mkTag Id3v2 (flat_map sp_pictures parts) (flat_map sp_items parts) None).

(** ** Conversion from Tag: tag/conversion.rs 56-450 *)
Record ctx := mkCtx {
  c_tipl : list (str * str); c_text : list (str * str); c_txxx : list (str * str);
  c_comm : list ((bytes * str) * str); c_uslt : list ((bytes * str) * str);
  c_track : option N; c_track_total : option N; c_disc : option N; c_disc_total : option N }.
Definition ctx0 : ctx := mkCtx [] [] [] [] [] None None None None.
(** HashMap: [entry(k).and_modify(extend_text).or_insert(v)] and [insert] *)
Fixpoint map_extend {K} (eqb : K -> K -> bool) (k : K) (v : str) (m : list (K * str)) : list (K * str) :=
  match m with
  | [] => [(k, v)]
  | (k', v') :: m' => if eqb k k' then (k', v' ++ [0] ++ v) :: m' else (k', v') :: map_extend eqb k v m'
  end.
Fixpoint map_put {K} (eqb : K -> K -> bool) (k : K) (v : str) (m : list (K * str)) : list (K * str) :=
  match m with
  | [] => [(k, v)]
  | (k', v') :: m' => if eqb k k' then (k', v) :: m' else (k', v') :: map_put eqb k v m'
  end.
Definition lang_desc_eqb (a b : bytes * str) : bool := list_eqb (fst a) (fst b) && list_eqb (snd a) (snd b).

(** lines 63-94: the text, for an owned item and for a borrowed one *)
Definition item_string (owned : bool) (i : tag_item) : option str :=
  if owned then value_into_string (it_value i) else value_text (it_value i).
Inductive target := ToText | ToUser | ToGain | ToComm | ToUslt | ToFlag | ToAdvisory | ToTime | ToTrack | ToTrackTotal | ToDisc
  | ToDiscTotal | ToUfid | ToPopm | ToOther.
Definition target_of (k : item_key) : target :=
  match k with
  | KTrackArtist | KAlbumArtist | KTrackTitle | KAlbumTitle | KSetSubtitle | KTrackSubtitle | KOriginalAlbumTitle | KOriginalArtist
  | KOriginalLyricist | KContentGroup | KAppleId3v2ContentGroup | KGenre | KMood | KComposer | KConductor | KWriter | KLyricist
  | KInternetRadioStationName | KInternetRadioStationOwner | KRemixer | KWork | KMovement | KFileOwner | KCopyrightMessage
  | KLanguage | KPublisher => ToText
  | KTrackArtists | KAlbumArtists | KDirector | KAcoustId | KAcoustIdFingerprint | KCatalogNumber | KMusicBrainzArtistId
  | KMusicBrainzReleaseArtistId | KMusicBrainzWorkId | KMusicBrainzReleaseType | KReleaseCountry | KBarcode => ToUser
  | KReplayGainAlbumGain | KReplayGainAlbumPeak | KReplayGainTrackGain | KReplayGainTrackPeak => ToGain
  | KComment => ToComm
  | KUnsyncLyrics => ToUslt
  | KFlagCompilation | KFlagPodcast => ToFlag
  | KParentalAdvisory => ToAdvisory
  | KRecordingDate | KOriginalReleaseDate => ToTime
  | KTrackNumber => ToTrack
  | KTrackTotal => ToTrackTotal
  | KDiscNumber => ToDisc
  | KDiscTotal => ToDiscTotal
  | KMusicBrainzRecordingId => ToUfid
  | KPopularimeter => ToPopm
  | _ => ToOther
  end.
(** the "expect"s: every key that is looked up with one has a mapping *)
Definition mapped_key (k : item_key) : str := match map_key Id3v2 k with Some s => s | None => [] end.
Definition is_ascii (s : str) : bool := forallb (fun c => c <? 128) s.
Definition parse_number (i : tag_item) : option N :=
  match value_text (it_value i) with Some s => parse_uint U32_MAX s | None => None end.
Definition popm_frame (p : popm) : frame :=
  FPopm (new_header ($"POPM")) (match pm_email p with Some e => e | None => [] end) (mapped_value p Id3v2) (pm_count p).

(** lines 59-350 (item_to_frame) *)
Definition item_to_frame (custom : provider) (owned : bool) (c : ctx) (i : tag_item) : ctx * option frame :=
  let k := it_key i in
  let '(mkCtx tipl text txxx comm uslt tr trt di dit) := c in
  match target_of k with
  | ToTrack => (mkCtx tipl text txxx comm uslt (parse_number i) trt di dit, None)
  | ToTrackTotal => (mkCtx tipl text txxx comm uslt tr (parse_number i) di dit, None)
  | ToDisc => (mkCtx tipl text txxx comm uslt tr trt (parse_number i) dit, None)
  | ToDiscTotal => (mkCtx tipl text txxx comm uslt tr trt di (parse_number i), None)
  | ToFlag =>
      (c, match value_text (it_value i) with
          | Some s => option_map (fun b : bool => text_frame (mapped_key k) (to_dec (if b then 1 else 0))) (ApeModel.flag_item s)
          | None => None
          end)
  | ToAdvisory =>
      (c, match value_text (it_value i) with
          | Some s => match parse_uint U8_MAX s with
                      | Some n => option_map (fun r => user_text_frame ($"ITUNESADVISORY") (to_dec (IlstModel.rating_u8 r))) (IlstModel.rating_of n)
                      | None => None
                      end
          | None => None
          end)
  | t =>
      match item_string owned i with
      | None => (c, None)
      | Some s =>
          match t with
          | ToText => (mkCtx tipl (map_extend list_eqb (mapped_key k) s text) txxx comm uslt tr trt di dit, None)
          | ToUser => (mkCtx tipl text (map_extend list_eqb (mapped_key k) s txxx) comm uslt tr trt di dit, None)
          | ToGain => (mkCtx tipl text (map_put list_eqb (mapped_key k) s txxx) comm uslt tr trt di dit, None)
          | ToComm => (mkCtx tipl text txxx (map_extend lang_desc_eqb (it_lang i, it_desc i) s comm) uslt tr trt di dit, None)
          | ToUslt => (mkCtx tipl text txxx comm (map_extend lang_desc_eqb (it_lang i, it_desc i) s uslt) tr trt di dit, None)
          | ToTime =>
              (c, Some (match ts_from_str (utf8_enc s) with
                        | Ok d => time_frame (mapped_key k) d
                        | _ => text_frame (mapped_key k) s
                        end))
          | ToUfid => (c, if is_ascii s then Some (ufid_frame MUSICBRAINZ (utf8_enc s)) else None)
          | ToPopm => (c, option_map popm_frame (popm_from_str custom s))
          | _ =>
              match tipl_name k with
              | Some n => (mkCtx (tipl ++ [(n, s)]) text txxx comm uslt tr trt di dit, None)
              | None =>
                  (c, match map_key Id3v2 k with
                      | Some m =>
                          if lenN m =? 4 then
                            match frame_id_new m with
                            | Some _ => if starts 84 m then Some (text_frame m s) else if starts 87 m then Some (url_frame m s) else None
                            | None => None
                            end
                          else None
                      | None => None
                      end)
              end
          end
      end
  end.
Fixpoint items_to_frames (custom : provider) (owned : bool) (c : ctx) (l : list tag_item) : ctx * frames :=
  match l with
  | [] => (c, [])
  | i :: l' =>
      let '(c, o) := item_to_frame custom owned c i in
      let '(c, r) := items_to_frames custom owned c l' in
      (c, match o with Some f => f :: r | None => r end)
  end.
Definition opt_list {A} (o : option A) : list A := match o with Some x => [x] | None => [] end.
(** lines 405-448: the frames in the order they are inserted *)
Definition ctx_frames (c : ctx) : frames :=
  (match c_tipl c with [] => [] | l => [tipl_frame l] end)
  ++ map (fun e => text_frame (fst e) (snd e)) (c_text c)
  ++ map (fun e => user_text_frame (fst e) (snd e)) (c_txxx c)
  ++ map (fun e => comment_frame (fst (fst e)) (snd (fst e)) (snd e)) (c_comm c)
  ++ map (fun e => unsync_frame (fst (fst e)) (snd (fst e)) (snd e)) (c_uslt c)
  ++ opt_list (option_map (text_frame ($"TRCK")) (format_number_pair (c_track c) (c_track_total c)))
  ++ opt_list (option_map (text_frame ($"TPOS")) (format_number_pair (c_disc c) (c_disc_total c))).
(** HashSet::insert of each *)
Definition set_of (l : frames) : frames := fold_left (fun acc f => if existsb (fun g => frame_eqb g f) acc then acc else acc ++ [f]) l [].
(** The set of frames; [order] is how it comes out when it is iterated. *)
Definition from_tag (custom : provider) (owned : bool) (l : list tag_item) : frames :=
  let '(c, direct) := items_to_frames custom owned ctx0 l in set_of (direct ++ ctx_frames c).

(** tag.rs 931-978: merge_tag *)
Definition is_tipl (f : frame) : bool := id_eqb (f_id f) (Valid ($"TIPL")).
Definition merge_frame (l : frames) (f : frame) : frames :=
  if is_tipl f then
    match take_first is_tipl l with
    | (Some old, rest) =>
        rest ++ [match old, f with FKeyValue h e ps, FKeyValue _ _ qs => FKeyValue h e (ps ++ qs) | _, _ => old end]
    | (None, _) => l ++ [f]
    end
  else l ++ [f].
Definition merge_tag (order : frames -> frames) (custom : provider) (t : id3v2_tag) (g : gtag) : id3v2_tag :=
  let l := fold_left merge_frame (order (from_tag custom true (t_items g))) (t_frames t) in
  with_frames t (fold_left (fun l p => fst (fl_insert (picture_frame p) l)) (t_pictures g) l).
Definition NO_FLAGS : tag_flags := mkTFlags false false false false None.
Definition id3v2_default : id3v2_tag := mkT V4 NO_FLAGS [].
(** lines 981-1004 *)
Definition to_tag (custom : provider) (preserve : bool) (t : id3v2_tag) : gtag :=
  let '(rest, g) := split_tag custom t in
  mkTag (t_type g) (t_pictures g) (t_items g)
        (if preserve && negb (empty (t_frames rest)) then Some (CId3v2 rest) else None).
Definition of_tag (order : frames -> frames) (custom : provider) (preserve : bool) (g : gtag) : id3v2_tag :=
  match (if preserve then t_companion g else None) with
  | Some (CId3v2 t) => merge_tag order custom t g
  | _ => merge_tag order custom id3v2_default g
  end.
(** conversion.rs 453-494: the frames that saving a Tag writes *)
Definition tag_frames (order : frames -> frames) (custom : provider) (g : gtag) : frames :=
  order (from_tag custom false (t_items g))
  ++ match t_companion g with Some (CId3v2 t) => t_frames t | _ => [] end
  ++ map picture_frame (t_pictures g).
