(** Model of lofty/src/file/tagged_file.rs, tag/tag_ext.rs (save_to), tag/utils.rs (write_tag), tag/tag_type.rs (removal), util/io.rs (VerifiedFile) and the code that
    lofty_attr generates for the files of the formats (lofty_attr/src/lofty_file.rs, internal.rs; flac/mod.rs and flac/write.rs by hand).
    Simplified: what the writers of the formats do is a parameter [run] (they are modelled elsewhere), that gives the changes of the file for the type of the
    file, what is to be written and the content of the file (with an error it has changed nothing); companion tags are of any type; properties are not kept. *)
From Verif Require Import FileModel ProbeModel.
From Verif Require Export TagModel.

(** What is asked of a writer: a tag of the kind [k] that is made from a generic tag or from a native one, or an empty ID3v2 tag. *)
Section Tagged.
Context {C T : Type}.
(** A native tag: its type, whether it is empty, its content *)
Record native := mkNt { nt_type : tag_type; nt_empty : bool; nt_content : T }.
Inductive source := Generic (t : tag C) | Native (n : native).
Inductive act := Write (k : tag_type) (s : source) | Strip.
Inductive werr := WUnknown | WUnsupported | WIo | WWriter (e : N).
Context (run : ftype -> act -> bytes -> res werr (list fop)).

(** ** The fields of the files: aac/mod.rs 23-28, ape/mod.rs 30-40, flac/mod.rs 46-53, mpeg/mod.rs 21-31, mp4/mod.rs 37-40, musepack/mod.rs 61-73, ogg mod.rs,
    iff/wav/mod.rs 20-27, iff/aiff/mod.rs 21-28, wavpack/mod.rs 18-25 *)
Definition fields (f : ftype) : list tag_type :=
  match f with
  | FAac => [Id3v2; Id3v1] | FApe => [Id3v1; Id3v2; Ape] | FFlac => [Id3v2; VorbisComments] | FMpeg => [Id3v2; Id3v1; Ape] | FMp4 => [Mp4Ilst] | FMpc => [Id3v2; Id3v1; Ape]
  | FOpus | FVorbis | FSpeex => [VorbisComments] | FWav => [RiffInfo; Id3v2] | FAiff => [AiffText; Id3v2] | FWavPack => [Id3v1; Ape] | FCustom _ => []
  end.
(** internal.rs 16, 34-88 (the blocks of the generated function) and 90-128 *)
Definition strippable (f : ftype) : bool := match f with FFlac | FApe => true | _ => false end.
Definition generated_write (f : ftype) (t : tag C) : res werr act :=
  if existsb (tt_eqb (t_type t)) (fields f) then Ok (if tt_eqb (t_type t) Id3v2 && strippable f then Strip else Write (t_type t) (Generic t)) else Err WUnsupported.
(** flac/write.rs 22-47 *)
Definition flac_write (t : tag C) : res werr act :=
  match t_type t with VorbisComments => Ok (Write VorbisComments (Generic t)) | Id3v2 => Ok Strip | _ => Panic end.
(** tag/utils.rs 21-49 *)
Definition write_tag (f : ftype) (t : tag C) : res werr act :=
  match f with
  | FAac | FAiff | FApe | FMpc | FMpeg | FWav | FWavPack => generated_write f t
  | FFlac => flac_write t
  | FOpus | FSpeex | FVorbis => Ok (Write VorbisComments (Generic t))
  | FMp4 => Ok (Write Mp4Ilst (Generic t))
  | FCustom _ => Panic
  end.
(** The implementations of [TagWriteExt] (for instance ape/tag/mod.rs 478-493) and ogg/tag.rs 707-720, ogg/tag/write.rs 52-58: only Vorbis comments look at the type of the file *)
Definition native_write (f : ftype) (n : native) : res werr act :=
  match nt_type n, f with
  | VorbisComments, (FFlac | FOpus | FSpeex | FVorbis) => Ok (Write VorbisComments (Native n))
  | VorbisComments, _ => Panic
  | k, _ => Ok (Write k (Native n))
  end.

(** ** A file that is open at its start. io.rs 251-260 *)
Definition format_of (g : registry) (d : bytes) : res werr ftype :=
  match verified g (mkCu d 0) with Ok (f, _) => Ok f | Err _ => Err WUnknown | Panic => Panic end.
Definition perform (f : ftype) (a : act) (d : bytes) : res werr bytes := let? log := run f a d in Ok (apply_log d log).
(** tag_ext.rs 100-118; [support_of] is tag_support *)
Definition support_of (g : registry) (f : ftype) (k : tag_type) : res werr support := match tag_support g f k with Ok s => Ok s | Err _ => Panic | Panic => Panic end.
Definition save_to (g : registry) (k : tag_type) (empty : bool) (write : ftype -> res werr act) (d : bytes) : res werr bytes :=
  let? f := format_of g d in
  let? s := support_of g f k in
  if negb (is_writable s) && negb empty then Err WUnsupported else
  let? a := write f in perform f a d.
Definition tag_save (g : registry) (t : tag C) (d : bytes) : res werr bytes := save_to g (t_type t) (tag_is_empty t) (fun f => write_tag f t) d.
Definition native_save (g : registry) (n : native) (d : bytes) : res werr bytes := save_to g (nt_type n) (nt_empty n) (fun f => native_write f n) d.
(** tag_type.rs 143-169 *)
Definition remove_from (g : registry) (k : tag_type) (d : bytes) : res werr bytes :=
  let? f := format_of g d in
  let? s := support_of g f k in
  if negb (is_readable s) then Err WUnsupported else
  let? a := write_tag f (tag_new k) in perform f a d.
(** lines 126-133, io.rs 271-282 and probe.rs 257-272: the type is that of the name; the file is opened with [File::open], for reading only, so the first change fails *)
Definition remove_from_path (g : registry) (k : tag_type) (path : list N) (d : bytes) : res werr bytes * bytes :=
  match from_path g path with
  | None => (Err WUnknown, d)
  | Some f =>
      (let? s := support_of g f k in
       if negb (is_readable s) then Err WUnsupported else
       let? a := write_tag f (tag_new k) in
       let? log := run f a d in
       match log with [] => Ok d | _ => Err WIo end, d)
  end.

(** ** tagged_file.rs 319-343 *)
Record tagged := mkTf { tf_type : ftype; tf_tags : list (tag C) }.
(** 376-420 *)
Definition find_tag (k : tag_type) (x : tagged) : option (tag C) := find (fun t => tt_eqb (t_type t) k) (tf_tags x).
Fixpoint drop_first (k : tag_type) (l : list (tag C)) : option (tag C) * list (tag C) :=
  match l with
  | [] => (None, [])
  | t :: l => if tt_eqb (t_type t) k then (Some t, l) else let (o, l) := drop_first k l in (o, t :: l)
  end.
Definition remove_tag (k : tag_type) (x : tagged) : option (tag C) * tagged := let (o, l) := drop_first k (tf_tags x) in (o, mkTf (tf_type x) l).
Definition insert_tag (g : registry) (t : tag C) (x : tagged) : res werr (option (tag C) * tagged) :=
  let? s := support_of g (tf_type x) (t_type t) in
  if is_readable s then let (o, x) := remove_tag (t_type t) x in Ok (o, mkTf (tf_type x) (tf_tags x ++ [t])) else Ok (None, x).
Definition clear_tags (x : tagged) : tagged := mkTf (tf_type x) [].
(** 368-373 *)
Fixpoint retain_readable (g : registry) (f : ftype) (l : list (tag C)) : res werr (list (tag C)) :=
  match l with
  | [] => Ok []
  | t :: l => let? s := support_of g f (t_type t) in let? l := retain_readable g f l in Ok (if is_readable s then t :: l else l)
  end.
Definition change_file_type (g : registry) (f : ftype) (x : tagged) : res werr tagged := let? l := retain_readable g f (tf_tags x) in Ok (mkTf f l).
(** [tag_mut] and then a change *)
Fixpoint change_first (k : tag_type) (h : tag C -> tag C) (l : list (tag C)) : list (tag C) :=
  match l with [] => [] | t :: l => if tt_eqb (t_type t) k then h t :: l else t :: change_first k h l end.
Definition change_tag (k : tag_type) (h : tag C -> tag C) (x : tagged) : tagged := mkTf (tf_type x) (change_first k h (tf_tags x)).
(** 439-457: also the content of the file when it stops with an error *)
Fixpoint save_tags (g : registry) (f : ftype) (l : list (tag C)) (d : bytes) : res werr unit * bytes :=
  match l with
  | [] => (Ok tt, d)
  | t :: l =>
      match support_of g f (t_type t) with
      | Ok s => if is_writable s then match tag_save g t d with Ok d' => save_tags g f l d' | Err e => (Err e, d) | Panic => (Panic, d) end else save_tags g f l d
      | Err e => (Err e, d)
      | Panic => (Panic, d)
      end
  end.
Definition tagged_save (g : registry) (x : tagged) (d : bytes) : res werr unit * bytes := save_tags g (tf_type x) (tf_tags x) d.
(** 613-618 *)
Definition bound_save (g : registry) (x : tagged) (d : bytes) : res werr unit * bytes * tagged :=
  match tagged_save g x d with
  | (Ok u, d') => (Ok u, d', mkTf (tf_type x) (filter (fun t => negb (tag_is_empty t)) (tf_tags x)))
  | (r, d') => (r, d', x)
  end.

(** ** Files of the formats: lofty_file.rs 483-514: the tags are saved in the order of the fields *)
Record nfile := mkNf { nf_type : ftype; nf_tags : list (tag_type * option native) }.
Fixpoint save_fields (g : registry) (l : list (tag_type * option native)) (d : bytes) : res werr unit * bytes :=
  match l with
  | [] => (Ok tt, d)
  | (_, None) :: l => save_fields g l d
  | (_, Some n) :: l => match native_save g n d with Ok d' => save_fields g l d' | Err e => (Err e, d) | Panic => (Panic, d) end
  end.
Definition file_save (g : registry) (x : nfile) (d : bytes) : res werr unit * bytes := save_fields g (nf_tags x) d.
(** lofty_file.rs 397-481 *)
Definition file_contains (k : tag_type) (x : nfile) : bool := existsb (fun e => tt_eqb (fst e) k && match snd e with Some _ => true | None => false end) (nf_tags x).
(** 516-565; [conv] is the conversion of a native tag *)
Definition to_tagged (conv : native -> tag C) (x : nfile) : tagged := mkTf (nf_type x) (flat_map (fun e => match snd e with Some n => [conv n] | None => [] end) (nf_tags x)).
(** flac/mod.rs 60-106: the ID3v2 tag, then the comments with the pictures of the file; [join] adds pictures (there are some if [pics]) to comments *)
Definition flac_save (g : registry) (v2 vc : option native) (pics : bool) (join : option native -> native) (d : bytes) : res werr unit * bytes :=
  let after d := match (if pics then Some (join vc) else match vc with Some _ => Some (join vc) | None => None end) with
    | None => match format_of g d with Ok _ => (Ok tt, d) | Err e => (Err e, d) | Panic => (Panic, d) end
    | Some n => match (let? f := format_of g d in let? a := native_write f n in perform f a d) with Ok d' => (Ok tt, d') | Err e => (Err e, d) | Panic => (Panic, d) end
    end in
  match v2 with
  | None => after d
  | Some n => match native_save g n d with Ok d' => after d' | Err e => (Err e, d) | Panic => (Panic, d) end
  end.
End Tagged.
Arguments native : clear implicits. Arguments source : clear implicits. Arguments act : clear implicits. Arguments tagged : clear implicits. Arguments nfile : clear implicits.
