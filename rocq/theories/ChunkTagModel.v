(** Model of ID3v2 tags in the chunks of WAV and AIFF files with their frames (lofty/src/iff/chunk.rs 279-306, id3/v2/write/mod.rs 37-72). The parts are modelled in
    FrameReadModel, FrameWriteModel and IffModel. Simplified: all errors of the parser are one. *)
From Verif Require Import Base FileModel IffModel Id3v2HeaderModel FrameModel FrameReadModel FrameWriteModel.

(** chunk.rs 300-303 *)
Definition chunk_id3 (inflate : bytes -> option bytes) (o : fopts) (content : bytes) : res iff_error id3v2_tag :=
  match header_parse content with
  | (Ok h, r) => match parse_id3v2 inflate h o r with Ok (t, _) => Ok t | Err _ => Err IId3 | Panic => Panic end
  | (Err _, _) => Err IId3
  | (Panic, _) => Panic
  end.
(** write/mod.rs 46-72; [be]: AIFF *)
Definition without_footer (f : tag_flags) : tag_flags := mkTFlags (tf_unsync f) (tf_experimental f) false (tf_crc f) (tf_restrictions f).
Definition save_id3_chunk (be : bool) (m : pmode) (upper : bool) (w : wopts) (f : tag_flags) (frames : list frame) (data : bytes) : res iff_error (list fop) :=
  match create_tag w (without_footer f) frames with
  | Ok tag => write_id3_chunk be m upper (match w_padding w with Some _ => true | None => false end) data tag
  | Err _ => Err IId3
  | Panic => Panic
  end.
