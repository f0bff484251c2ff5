(** Specification: ID3v2.2 tags, frames a tag has once, frames that say nothing, checksums, leading ones. *)
From Verif Require Export FrameSpec FrameWriteModel FrameReadModel.

(** ** ID3v2.2 names (id3v2-00, section 4; the names used by iTunes) and the ID3v2.4 frames that hold the same. *)
Definition NAMES22 : list (str * str) :=
  [($"BUF", $"RBUF"); ($"CNT", $"PCNT"); ($"COM", $"COMM"); ($"CRA", $"AENC"); ($"ETC", $"ETCO"); ($"GEO", $"GEOB"); ($"IPL", $"TIPL");
   ($"MCI", $"MCDI"); ($"MLL", $"MLLT"); ($"PIC", $"APIC"); ($"POP", $"POPM"); ($"REV", $"RVRB"); ($"SLT", $"SYLT"); ($"STC", $"SYTC");
   ($"TAL", $"TALB"); ($"TBP", $"TBPM"); ($"TCM", $"TCOM"); ($"TCO", $"TCON"); ($"TCR", $"TCOP"); ($"TDY", $"TDLY"); ($"TEN", $"TENC");
   ($"TFT", $"TFLT"); ($"TKE", $"TKEY"); ($"TLA", $"TLAN"); ($"TLE", $"TLEN"); ($"TMT", $"TMED"); ($"TOA", $"TOPE"); ($"TOF", $"TOFN");
   ($"TOL", $"TOLY"); ($"TOR", $"TDOR"); ($"TOT", $"TOAL"); ($"TP1", $"TPE1"); ($"TP2", $"TPE2"); ($"TP3", $"TPE3"); ($"TP4", $"TPE4");
   ($"TPA", $"TPOS"); ($"TPB", $"TPUB"); ($"TRC", $"TSRC"); ($"TRD", $"TDRC"); ($"TRK", $"TRCK"); ($"TSS", $"TSSE"); ($"TT1", $"TIT1");
   ($"TT2", $"TIT2"); ($"TT3", $"TIT3"); ($"TXT", $"TEXT"); ($"TXX", $"TXXX"); ($"TYE", $"TDRC"); ($"UFI", $"UFID"); ($"ULT", $"USLT");
   ($"WAF", $"WOAF"); ($"WAR", $"WOAR"); ($"WAS", $"WOAS"); ($"WCM", $"WCOM"); ($"WCP", $"WCOP"); ($"WPB", $"WPUB"); ($"WXX", $"WXXX");
   ($"TCP", $"TCMP"); ($"TS2", $"TSO2"); ($"TSA", $"TSOA"); ($"TSC", $"TSOC"); ($"TSP", $"TSOP"); ($"TST", $"TSOT"); ($"PCS", $"PCST");
   ($"TCT", $"TCAT"); ($"TDS", $"TDES"); ($"TID", $"TGID"); ($"WFD", $"WFED"); ($"MVI", $"MVIN"); ($"MVN", $"MVNM"); ($"GP1", $"GRP1");
   ($"TDR", $"TDRL")].
Definition WRONG22 : list str := [$"TOA"; $"TXT"].
Definition name22 (s : str) : Prop := length s = 3%nat /\ Forall (fun c => 65 <= c <= 90 \/ 48 <= c <= 57) s.
(** A frame of ID3v2.2: a name of three characters, three bytes of size, the content. *)
Definition stored22 (name : str) (content : bytes) : bytes := name ++ be_enc 3 (lenN content) ++ content.
Definition FORMATS : list (str * mime_type) := [($"PNG", Png); ($"JPG", Jpeg)].
(** [frame22 w m name f content]: [content] under [name] is the frame [f]. The text is stored as in ID3v2.3 (ISO-8859-1 or UTF-16). *)
Inductive frame22 (w : wopts) (m : pmode) : str -> frame -> bytes -> Prop :=
| f22_known : forall o n f b, In (o, n) NAMES22 -> ~ In o WRONG22 -> n <> $"APIC" -> f_id f = Valid n -> f_flags f = ff_default ->
    kind_of_name n = kind_of f -> content_ok true m f -> leaf_bytes w f = Ok b -> frame22 w m o (restored true f) b
| f22_other : forall o f b, name22 o -> ~ In o (map fst NAMES22) -> f_id f = Outdated o -> f_flags f = ff_default ->
    match f with FText _ _ _ => hd 0 o = 84 | FUrl _ _ => hd 0 o = 87 | FBin _ _ => hd 0 o <> 84 /\ hd 0 o <> 87 | _ => False end ->
    content_ok true m f -> leaf_bytes w f = Ok b -> frame22 w m o (restored true f) b
| f22_picture : forall name mime e t d db data, In (name, mime) FORMATS -> t < 256 -> terminated_ok e d -> enc_bytes (w_ne w) e d db ->
    frame22 w m ($"PIC")
      (FPicture (new_header ($"APIC")) e (mkPic (pic_from_u8 t) (Some mime) (match d with [] => None | _ => Some d end) data))
      (enc_to_u8 e :: name ++ t :: db ++ terminator e ++ data).
Record entry22 := mkE { e_name : str; e_frame : frame; e_content : bytes }.
Definition entry_ok (w : wopts) (m : pmode) (e : entry22) : Prop :=
  frame22 w m (e_name e) (e_frame e) (e_content e) /\ lenN (e_content e) < 2 ^ 24.
Definition tag22 (l : list entry22) : bytes := flat_map (fun e => stored22 (e_name e) (e_content e)) l.

(** ** The frames of which a tag has one ("There may only be one ... frame in each tag"). *)
Definition SINGLES : list str :=
  [$"ASPI"; $"ETCO"; $"MCDI"; $"MLLT"; $"OWNE"; $"PCNT"; $"POSS"; $"RBUF"; $"RVRB"; $"SEEK"; $"SYTC"].

(** ** Frames with nothing in them, and frames with something in them. *)
Definition says (f : frame) (something : bool) : Prop :=
  match f with
  | FText _ _ v => if something then v <> [] else v = []
  | FUserText _ _ _ c | FUserUrl _ _ _ c | FComment _ _ _ _ c | FUnsync _ _ _ _ c | FUrl _ c => if something then c <> [] else c = []
  | FPicture _ _ p => if something then p_data p <> [] else p_data p = []
  | FKeyValue _ _ l => if something then l <> [] else l = []
  | FUfid _ _ d | FPriv _ _ d | FBin _ d => if something then d <> [] else d = []
  | FEtco _ _ l => if something then l <> [] else l = []
  | _ => False
  end.

(** ** CRC-32 (ISO 3309): a register of 32 bits, one bit of data at a time, least significant first. *)
Definition CRC_EXPONENTS : list N := [26; 23; 22; 16; 12; 11; 10; 8; 7; 5; 4; 2; 1; 0].
Definition crc_poly : N := fold_right (fun e n => n + 2 ^ (31 - e)) 0 CRC_EXPONENTS.
Definition crc_step (reg : N) (bit : bool) : N := N.lxor (reg / 2) (if xorb (N.odd reg) bit then crc_poly else 0).
Definition bits_of (b : N) : list bool := map (N.testbit b) [0; 1; 2; 3; 4; 5; 6; 7].
Definition crc_iso (l : bytes) : N := N.lxor (2 ^ 32 - 1) (fold_left crc_step (flat_map bits_of l) (2 ^ 32 - 1)).

(** ** The number of ones a byte begins with. *)
Definition ones (b n : N) : Prop := n <= 8 /\ (forall i, i < n -> N.testbit b (7 - i) = true) /\ (n < 8 -> N.testbit b (7 - n) = false).
(** Seven bits in each byte, most significant first. *)
Definition base128 (l : bytes) : N := fold_left (fun n b => n * 128 + b) l 0.
