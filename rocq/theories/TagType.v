(** lofty/src/tag/tag_type.rs: [TagType]. *)
Inductive tag_type : Set := Ape | Id3v1 | Id3v2 | Mp4Ilst | VorbisComments | RiffInfo | AiffText.
Definition tt_eqb (a b : tag_type) : bool :=
  match a, b with
  | Ape, Ape | Id3v1, Id3v1 | Id3v2, Id3v2 | Mp4Ilst, Mp4Ilst | VorbisComments, VorbisComments
  | RiffInfo, RiffInfo | AiffText, AiffText => true
  | _, _ => false
  end.
