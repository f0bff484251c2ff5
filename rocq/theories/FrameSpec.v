(** Specification of ID3v2 frames: which frames can be written and read back unchanged, and which ones are the same frame. *)
From Verif Require Export FrameModel TextSpec.

(** Texts followed by a terminator, and texts that end their frame (which may hold several values separated by NULs). *)
Definition terminated_ok (e : encoding) (s : str) : Prop := str_ok s /\ recoverable e s.
Definition text_ok (e : encoding) (s : str) : Prop :=
  str_ok s /\ last s 1 <> 0 /\
  match e with
  | Latin1 => Forall (fun c => c <= 255) s
  | UTF8 => True
  | UTF16 | UTF16BE => Forall (fun c => c <> 0xFEFF /\ c <> 0xFFFE) s
  end.

(** The kinds of frames by name (ID3v2.4.0 frames, section 4, and Apple's additions). *)
Inductive kind := KComment | KUnsync | KText | KUserText | KUrl | KUserUrl | KPicture | KPopm | KPairs | KRva2 | KUfid | KOwne
| KEtco | KPriv | KTime | KChap | KCtoc | KBin.
Definition KINDS : list (str * kind) :=
  [($"APIC", KPicture); ($"TXXX", KUserText); ($"WXXX", KUserUrl); ($"COMM", KComment); ($"USLT", KUnsync); ($"TIPL", KPairs);
   ($"TMCL", KPairs); ($"UFID", KUfid); ($"RVA2", KRva2); ($"OWNE", KOwne); ($"ETCO", KEtco); ($"PRIV", KPriv); ($"TDEN", KTime);
   ($"TDOR", KTime); ($"TDRC", KTime); ($"TDRL", KTime); ($"TDTG", KTime); ($"GRP1", KText); ($"MVNM", KText); ($"MVIN", KText);
   ($"POPM", KPopm); ($"CHAP", KChap); ($"CTOC", KCtoc)].
Definition kind_of_name (s : str) : kind :=
  match find (fun p => list_eqb (fst p) s) KINDS with
  | Some (_, k) => k
  | None => match s with 84 :: _ => KText | 87 :: _ => KUrl | _ => KBin end
  end.
Definition kind_of (f : frame) : kind :=
  match f with
  | FComment _ _ _ _ _ => KComment | FUnsync _ _ _ _ _ => KUnsync | FText _ _ _ => KText | FUserText _ _ _ _ => KUserText
  | FUrl _ _ => KUrl | FUserUrl _ _ _ _ => KUserUrl | FPicture _ _ _ => KPicture | FPopm _ _ _ _ => KPopm
  | FKeyValue _ _ _ => KPairs | FRva2 _ _ _ => KRva2 | FUfid _ _ _ => KUfid | FOwne _ _ _ _ _ => KOwne | FEtco _ _ _ => KEtco
  | FPriv _ _ _ => KPriv | FTime _ _ _ => KTime | FChap _ _ _ _ _ => KChap | FCtoc _ _ _ _ _ _ => KCtoc | FBin _ _ => KBin
  end.
Definition valid_name (s : str) : Prop := length s = 4%nat /\ Forall (fun c => 65 <= c <= 90 \/ 48 <= c <= 57) s.

(** The encoding that ends up in the file. *)
Definition stored (v23 : bool) (e : encoding) : encoding :=
  if v23 then match e with Latin1 => Latin1 | _ => UTF16 end else e.

(** Contents that can be stored and recovered. [m] is the parsing mode. *)
Definition letter (c : N) : Prop := 65 <= c <= 90 \/ 97 <= c <= 122.
Definition lang_ok (e : encoding) (l : bytes) (d c : str) : Prop :=
  length l = 3%nat /\ Forall letter l /\ terminated_ok e d /\ (if encoding_eqb e UTF16 then terminated_ok e c else text_ok e c).
Definition mime_ok (m : mime_type) : Prop :=
  mime_as_str m <> [] /\ Forall (fun c => 0 < c < 128) (mime_as_str m) /\ mime_from_str (mime_as_str m) = m.
Definition channel_ok (c : channel) : Prop :=
  ch_type c <= 8 /\ ch_adjust c < 2 ^ 16 /\ ch_bits c < 256 /\
  match ch_peak c with None => ch_bits c = 0 | Some p => 0 < ch_bits c /\ lenN p = (ch_bits c + 7) / 8 end.
Definition event_ok (e : event) : Prop :=
  (ev_type e <= 0x16 \/ 0xE0 <= ev_type e <= 0xEF \/ 0xFD <= ev_type e <= 0xFF) /\ ev_time e < 2 ^ 32.
Fixpoint chronological (l : list event) : Prop :=
  match l with a :: ((b :: _) as l') => ev_time a <= ev_time b /\ chronological l' | _ => True end.
Definition content_ok (v23 : bool) (m : pmode) (f : frame) : Prop :=
  match f with
  | FComment _ e l d c | FUnsync _ e l d c => lang_ok (stored v23 e) l d c
  | FText _ e v => text_ok (stored v23 e) v
  | FUserText _ e d c => terminated_ok (stored v23 e) d /\ text_ok (stored v23 e) c
  | FUrl _ c => terminated_ok Latin1 c /\ c <> []
  | FUserUrl _ e d c =>
      terminated_ok (stored v23 e) d /\
      (stored v23 e = Latin1 /\ text_ok Latin1 c \/ stored v23 e = UTF8 /\ Forall (fun c => c < 128) c /\ last c 1 <> 0)
  | FPicture _ e p =>
      match p_mime p with Some m => mime_ok m | None => True end /\ pic_as_u8 (p_type p) < 256 /\
      pic_from_u8 (pic_as_u8 (p_type p)) = p_type p /\
      match p_desc p with Some d => d <> [] /\ terminated_ok (stored v23 e) d | None => True end
  | FPopm _ m r c => terminated_ok Latin1 m /\ r < 256 /\ c < 2 ^ 64
  | FKeyValue _ e l => l <> [] /\ Forall (fun p => terminated_ok (stored v23 e) (fst p) /\ terminated_ok (stored v23 e) (snd p)) l
  | FRva2 _ i l => terminated_ok Latin1 i /\ Forall channel_ok l /\ NoDup (map ch_type l)
  | FUfid _ o _ => terminated_ok Latin1 o /\ (o <> [] \/ m = BestAttempt)
  | FOwne _ e p d s => terminated_ok Latin1 p /\ (length d = 8%nat /\ Forall (fun c => c < 128) d /\ last d 1 <> 0) /\
      text_ok (stored v23 e) s
  | FEtco _ _ l => Forall event_ok l /\ chronological l
  | FPriv _ o _ => terminated_ok Latin1 o
  | FTime _ _ t => ts_verify t = Ok tt
  | FBin _ d => d <> []
  | FChap _ i (a, b) (c, d) _ => terminated_ok Latin1 i /\ a < 2 ^ 32 /\ b < 2 ^ 32 /\ c < 2 ^ 32 /\ d < 2 ^ 32
  | FCtoc _ i _ _ es _ => terminated_ok Latin1 i /\ Forall (terminated_ok Latin1) es
  end.
(** The flags that the library can write and read back: those that do not change how the content is stored. *)
Definition flags_ok (f : frame_flags) : Prop :=
  ff_compression f = false /\ ff_encryption f = None /\ ff_unsync f = false /\ ff_length f = None /\
  match ff_group f with Some g => g < 256 | None => True end.
(** Frames that ID3v2.3 has under another name or not at all. *)
Definition RENAMED : list str :=
  [$"ASPI"; $"EQU2"; $"RVA2"; $"SEEK"; $"SIGN"; $"TDEN"; $"TDRL"; $"TDTG"; $"TMOO"; $"TPRO"; $"TSOA"; $"TSOP"; $"TSOT"; $"TSST";
   $"TDOR"; $"TDRC"; $"TCON"; $"TIPL"; $"TMCL"; $"TORY"; $"TYER"; $"IPLS"].
Definition header_ok (v23 : bool) (f : frame) : Prop :=
  (exists s, f_id f = Valid s /\ valid_name s /\ kind_of_name s = kind_of f /\ (v23 = true -> ~ In s RENAMED)) /\
  flags_ok (f_flags f) /\ kind_of f <> KOwne /\ kind_of f <> KEtco.

(** The frame as it is read back: only the encoding differs, in ID3v2.3. *)
Fixpoint restored (v23 : bool) (f : frame) : frame :=
  match f with
  | FComment h e l d c => FComment h (stored v23 e) l d c
  | FUnsync h e l d c => FUnsync h (stored v23 e) l d c
  | FText h e v => FText h (stored v23 e) v
  | FUserText h e d c => FUserText h (stored v23 e) d c
  | FUserUrl h e d c => FUserUrl h (stored v23 e) d c
  | FPicture h e p => FPicture h (stored v23 e) p
  | FKeyValue h e l => FKeyValue h (stored v23 e) l
  | FOwne h e p d s => FOwne h (stored v23 e) p d s
  | FTime h e t => FTime h (stored v23 e) t
  | FChap h i t o l => FChap h i t o (map (restored v23) l)
  | FCtoc h i t o es l => FCtoc h i t o es (map (restored v23) l)
  | _ => f
  end.

(** What makes two frames duplicates of each other. *)
Inductive identity :=
| ISingle (name : frame_id) | IComment (l : bytes) (d : str) | IUnsync (l : bytes) (d : str) | IText (i : frame_id)
| IUserText (d : str) | IUrl (i : frame_id) | IUserUrl (d : str) | IPopm (m : str) | IRva2 (i : str) | IUfid (o : str)
| IChap (i : str) | ICtoc (i : str) | IWhole (f : frame).
Definition identity_of (f : frame) : identity :=
  if in_names (f_name f) ONE_PER_TAG then ISingle (f_id f) else
  match f with
  | FComment _ _ l d _ => IComment l d | FUnsync _ _ l d _ => IUnsync l d
  | FText h _ _ => IText (fh_id h) | FUserText _ _ d _ => IUserText d | FUrl h _ => IUrl (fh_id h) | FUserUrl _ _ d _ => IUserUrl d
  | FPopm _ m _ _ => IPopm m | FRva2 _ i _ => IRva2 i | FUfid _ o _ => IUfid o | FChap _ i _ _ _ => IChap i
  | FCtoc _ i _ _ _ _ => ICtoc i
  | _ => IWhole f
  end.
Definition is_root (f : frame) : bool := match f with FCtoc _ _ t _ _ _ => t | _ => false end.
(** Lists of frames without duplicates, with at most one root table of contents. *)
Definition list_ok (v23 : bool) (l : list frame) : Prop :=
  NoDup (map identity_of (map (restored v23) l)) /\ lenN (filter is_root l) <= 1.

(** Frames that can be stored, with the frames inside them. *)
Inductive frame_ok (v23 : bool) (m : pmode) : frame -> Prop :=
| ok_frame : forall f, header_ok v23 f -> content_ok v23 m f ->
    Forall (frame_ok v23 m) (match f with FChap _ _ _ _ l | FCtoc _ _ _ _ _ l => l | _ => [] end) ->
    list_ok v23 (match f with FChap _ _ _ _ l | FCtoc _ _ _ _ _ l => l | _ => [] end) -> frame_ok v23 m f.
