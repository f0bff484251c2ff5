(** MP4 files as trees of atoms (ISO/IEC 14496-12) and the atoms of an iTunes metadata list. *)
From Verif Require Import Base Str TextModel PictureModel.
From Verif Require Import Mp4Model.

(** An identifier: four printable ASCII characters or the copyright sign. *)
Definition box_id (id : bytes) : Prop := lenN id = 4 /\ Forall (fun b => 0x20 <= b <= 0x7E \/ b = 0xA9) id.
(** An atom: 32-bit size (including itself), identifier, content. *)
Definition sbox (id content : bytes) : bytes := be_enc 4 (8 + lenN content) ++ id ++ content.

(** Trees; the size field is part of the tree, [box_ok] says that it is right. *)
Inductive box := Leaf (size : N) (id content : bytes) | Node (size : N) (id : bytes) (kids : list box).
Fixpoint enc (b : box) : bytes :=
  match b with
  | Leaf s id c => be_enc 4 s ++ id ++ c
  | Node s id ks => be_enc 4 s ++ id ++ flat_map enc ks
  end.
Definition encs (l : list box) : bytes := flat_map enc l.
Definition box_name (b : box) : bytes := match b with Leaf _ id _ | Node _ id _ => id end.
Definition CONTAINERS : list bytes := [$"moov"; $"udta"; $"moof"; $"trak"; $"mdia"; $"minf"; $"stbl"].
Fixpoint box_ok (b : box) : Prop :=
  match b with
  | Leaf s id c => s = 8 + lenN c /\ s < 2 ^ 32 /\ box_id id /\ id <> $"----" /\ ~ In id CONTAINERS
  | Node s id ks => s = 8 + lenN (flat_map enc ks) /\ s < 2 ^ 32 /\ In id CONTAINERS /\
      (fix all (l : list box) : Prop := match l with [] => True | k :: l => box_ok k /\ all l end) ks
  end.
Definition boxes_ok (l : list box) : Prop := Forall box_ok l.
(** [leaf id c], [node id ks]: with the right size *)
Definition leaf (id c : bytes) : box := Leaf (8 + lenN c) id c.
Definition node (id : bytes) (ks : list box) : box := Node (8 + lenN (encs ks)) id ks.
Definition none_named (id : bytes) (l : list box) : Prop := Forall (fun b => box_name b <> id) l.

(** ** Metadata items
    A value is an atom [data]: a byte 0 (the type set), a 24-bit type, four bytes locale, the value. *)
Definition dbox (v : N * bytes) : bytes := sbox ($"data") (0 :: be_enc 3 (fst v) ++ [0; 0; 0; 0] ++ snd v).
Definition dbox_ok (v : N * bytes) : Prop := fst v < 2 ^ 24 /\ 16 + lenN (snd v) < 2 ^ 32.
(** The name of a freeform item: [mean] and [name], each with four bytes version and flags *)
Definition name_boxes (mean name : str) : bytes :=
  sbox ($"mean") ([0; 0; 0; 0] ++ utf8_enc mean) ++ sbox ($"name") ([0; 0; 0; 0] ++ utf8_enc name).
Definition no_nul_end (s : str) : Prop := last s 1 <> 0.
Definition text_ok (s : str) : Prop := str_ok s /\ no_nul_end s.

(** The type and the bytes of a value (Table "Well-known data types" of the QuickTime file format) *)
Definition pic_code (m : option mime_type) : N :=
  match m with Some Gif => 12 | Some Jpeg => 13 | Some Png => 14 | Some Bmp => 27 | _ => 0 end.
Definition ubytes (n : N) : nat := if n <? 256 then 1%nat else if n <? 65536 then 2%nat else 4%nat.
Definition coded (d : adata) : N * bytes :=
  match d with
  | AUtf8 s => (1, utf8_enc s)
  | AUtf16 s => (2, flat_map (u16_bytes true) (utf16_units s))
  | APic p => (pic_code (p_mime p), p_data p)
  | ASigned z => (21, be_enc 4 (Z.to_N (z mod 2 ^ 32)))
  | AUnsigned n => (22, be_enc (ubytes n) n)
  | ABool b => (21, [if b then 1 else 0])
  | AUnknown c d => (c, d)
  end.
Definition item_box (a : atom) : bytes :=
  let vs := flat_map dbox (map coded (at_data a)) in
  match at_ident a with
  | Fourcc f => sbox f vs
  | Freeform mean name => sbox ($"----") (name_boxes mean name ++ vs)
  end.

(** Items that can be stored as they are *)
Definition FLAGS : list bytes := [$"cpil"; $"hdvd"; $"pcst"; $"pgap"; $"shwm"].
Definition SPECIAL : list bytes := [$"free"; $"skip"; $"covr"; $"gnre"; $"plID"] ++ FLAGS.
Definition ident_ok (i : ident) : Prop :=
  match i with Fourcc f => box_id f /\ f <> $"----" | Freeform mean name => text_ok mean /\ text_ok name end.
Definition plain_value (d : adata) : Prop :=
  match d with
  | AUtf8 s => s <> [] /\ text_ok s
  | ASigned z => (- 2 ^ 31 <= z < 2 ^ 31)%Z
  | AUnsigned n => n < 2 ^ 32
  | AUnknown c d => c < 2 ^ 24 /\ ~ In c [1; 2; 21; 22] /\ d <> []
  | _ => False
  end.
Definition raw_value (len_ok : N -> Prop) (d : adata) : Prop :=
  match d with AUnknown c d => c < 2 ^ 24 /\ d <> [] /\ len_ok (lenN d) | _ => False end.
Definition pic_value (d : adata) : Prop :=
  match d with
  | APic p => p_type p = POther /\ p_desc p = None /\ p_data p <> [] /\ In (p_mime p) [None; Some Gif; Some Jpeg; Some Png; Some Bmp]
  | _ => False
  end.
Inductive values_ok : ident -> list adata -> Prop :=
| VoCovr : forall ds, Forall pic_value ds -> values_ok (Fourcc ($"covr")) ds
| VoGnre : forall ds, Forall (raw_value (fun _ => True)) ds -> values_ok (Fourcc ($"gnre")) ds
| VoPlid : forall ds, Forall (raw_value (fun n => n = 8)) ds -> values_ok (Fourcc ($"plID")) ds
| VoFlag : forall f b, In f FLAGS -> values_ok (Fourcc f) [ABool b]
| VoPlain : forall i ds, Forall plain_value ds -> (forall f, i = Fourcc f -> ~ In f SPECIAL) -> values_ok i ds.
Definition atom_ok (a : atom) : Prop := ident_ok (at_ident a) /\ at_data a <> [] /\ values_ok (at_ident a) (at_data a).
(** Pictures are only read if asked for; number genres are turned into names with implicit conversions *)
Definition kept (o : mopts) (a : atom) : Prop :=
  (at_ident a = Fourcc ($"covr") -> mo_cover o = true) /\ (at_ident a = Fourcc ($"gnre") -> mo_implicit o = false).

(** ** Offset tables: version and flags, the number of offsets, the offsets ([w] bytes each); more may follow. *)
Definition table (w : nat) (c : bytes) (offs : list N) : Prop :=
  exists ver rest, lenN ver = 4 /\ c = ver ++ be_enc 4 (lenN offs) ++ flat_map (be_enc w) offs ++ rest /\
    lenN offs < 2 ^ 32 /\ Forall (fun o => o < 256 ^ N.of_nat w) offs.
(** A property of all atoms of a tree *)
Fixpoint every (P : box -> Prop) (b : box) : Prop :=
  P b /\ match b with
         | Leaf _ _ _ => True
         | Node _ _ ks => (fix all (l : list box) : Prop := match l with [] => True | k :: l => every P k /\ all l end) ks
         end.
(** No offsets but in well-formed [stco] atoms *)
Definition offsets_ok : box -> Prop :=
  every (fun b => box_name b <> $"co64" /\ match b with Leaf _ id c => id = $"stco" -> exists offs, table 4 c offs | Node _ _ _ => True end).
(** Another content for the leaves named [want] *)
Fixpoint upd (want : bytes) (f : bytes -> bytes) (b : box) : box :=
  match b with
  | Leaf s id c => Leaf s id (if list_eqb id want then f c else c)
  | Node s id ks => Node s id (map (upd want f) ks)
  end.
(** Mapping the offsets of a table *)
Fixpoint map_words (w : nat) (n : nat) (g : N -> N) (l : bytes) : bytes :=
  match n with O => l | S n => be_enc w (g (be_dec (takeN (N.of_nat w) l))) ++ map_words w n g (dropN (N.of_nat w) l) end.
Definition map_table (w : nat) (g : N -> N) (c : bytes) : bytes :=
  takeN 8 c ++ map_words w (N.to_nat (be_dec (takeN 4 (dropN 4 c)))) g (dropN 8 c).
(** What was at or after [from] moves by [d] *)
Definition moved (d : Z) (from o : N) : N := if o <? from then o else Z.to_N ((Z.of_N o + d) mod 2 ^ 32).
Definition shift_tables (d : Z) (from : N) : box -> box := upd ($"stco") (map_table 4 (moved d from)).

(** ** Files with a tag *)
Definition mp4_file (pre k1 u1 : list box) (meta : bytes) (u2 k2 post : list box) : list box :=
  pre ++ [node ($"moov") (k1 ++ [node ($"udta") (u1 ++ [leaf ($"meta") meta] ++ u2)] ++ k2)] ++ post.
(** an atom in [meta] *)
Definition item_ok (b : box) : Prop :=
  match b with Leaf s id c => s = 8 + lenN c /\ s < 2 ^ 32 /\ box_id id /\ id <> $"----" | Node _ _ _ => False end.
(** [meta] is a full atom (version and flags first) or not *)
Definition META_FIRST : list bytes := [$"hdlr"; $"ilst"; $"mhdr"; $"ctry"; $"lang"].
Definition meta_start (vers : bytes) (kids : list box) : Prop :=
  match kids with
  | [] => False
  | x :: _ => (vers = [] /\ In (box_name x) META_FIRST) \/ (lenN vers = 4 /\ ~ In (be_enc 4 (lenN (enc x))) META_FIRST)
  end.
Definition meta_form (vers : bytes) (kids : list box) : Prop := meta_start vers kids /\ (vers = [] -> Forall (fun x => 8 < lenN (enc x)) kids).
Definition ftyp_first (l : list box) : Prop :=
  match l with
  | Leaf _ id c :: _ => id = $"ftyp" /\ exists brand s rest, c = brand ++ rest /\ lenN brand = 4 /\ str_ok s /\ utf8_enc s = brand
  | _ => False
  end.
Definition free_box (n : N) : bytes := sbox ($"free") (repeat 1 (N.to_nat (n - 8))).
Definition all_free (l : list box) : Prop := Forall (fun b => box_name b = $"free") l.
Definition starts_free (l : list box) : Prop := match l with x :: _ => box_name x = $"free" | [] => False end.
(** The atoms of [meta]: [a0 f1 old f2 b0] with free space [f1] and [f2] around the old list. What is in their place
    afterwards, by how much the rest of the file moves, and the first atom that can move. [I] is the new list, or nothing. *)
Inductive new_kids (a0 f1 : list box) (old : box) (f2 b0 : list box) (I : bytes) (padding : option N) : bytes -> Z -> list box -> Prop :=
| NkRemove : I = [] ->
    new_kids a0 f1 old f2 b0 I padding (encs a0 ++ encs f1 ++ encs f2 ++ encs b0) (- Z.of_N (lenN (enc old))) (a0 ++ f1)
| NkFits : forall n, I <> [] -> lenN I + n = lenN (encs f1) + lenN (enc old) + lenN (encs f2) -> 8 < n ->
    new_kids a0 f1 old f2 b0 I padding (encs a0 ++ I ++ free_box n ++ encs b0) 0 a0
| NkGrow : forall n, I <> [] -> lenN I = lenN (encs f1) + lenN (enc old) + n -> lenN (encs f2) <= n + 8 ->
    new_kids a0 f1 old f2 b0 I padding (encs a0 ++ I ++ encs f2 ++ encs b0) (Z.of_N n) a0
| NkFill : I <> [] -> lenN I + 8 = lenN (encs f1) + lenN (enc old) -> f2 = [] ->
    new_kids a0 f1 old f2 b0 I padding (encs a0 ++ I ++ free_box 8 ++ encs f2 ++ encs b0) 0 a0
| NkShrink : forall n, I <> [] -> lenN I + n = lenN (encs f1) + lenN (enc old) -> 0 < n < 8 -> n + lenN (encs f2) <= 8 -> padding = None ->
    new_kids a0 f1 old f2 b0 I padding (encs a0 ++ I ++ encs f2 ++ encs b0) (- Z.of_N n) a0
| NkPad : forall n p, I <> [] -> lenN I + n = lenN (encs f1) + lenN (enc old) -> 0 < n < 8 -> n + lenN (encs f2) <= 8 -> padding = Some p -> 8 <= p < 2 ^ 32 ->
    new_kids a0 f1 old f2 b0 I padding (encs a0 ++ I ++ free_box p ++ encs f2 ++ encs b0) (Z.of_N p - Z.of_N n) a0.

(** ** Tracks. When the properties are read too, whatever follows [mdia] in a track is taken for a child of [moov]. *)
Definition quiet_trak (b : box) : Prop :=
  box_name b = $"trak" ->
  exists s ks, b = Node s ($"trak") ks /\
    (none_named ($"mdia") ks \/
     exists t1 x t2, ks = t1 ++ x :: t2 /\ none_named ($"mdia") t1 /\ box_name x = $"mdia" /\ none_named ($"trak") t2 /\ none_named ($"udta") t2).

Definition boring (b : box) : Prop := box_name b <> $"trak" /\ box_name b <> $"udta".
Definition quiet (o : mopts) (l : list box) : Prop := mo_props o = true -> Forall quiet_trak l.

(** ** Positions and sizes *)
Definition moov_at (pre : list box) : N := lenN (encs pre).
Definition udta_at (pre k1 : list box) : N := moov_at pre + 8 + lenN (encs k1).
Definition meta_at (pre k1 u1 : list box) : N := udta_at pre k1 + 8 + lenN (encs u1).
Definition udta_size u1 M u2 : N := 8 + (lenN (encs u1) + M + lenN (encs u2)).
Definition moov_size k1 U k2 : N := 8 + (lenN (encs k1) + U + lenN (encs k2)).
(** The atoms after a change that moves what is at or after [from] by [d] *)
Definition sh (d : Z) (from : N) (l : list box) : list box := map (shift_tables d from) l.
Definition shd (d : Z) (from : N) (l : list box) : list box := if (d =? 0)%Z then l else sh d from l.
(** A file with a tag that can be saved to *)
Definition tag_file (pre k1 u1 : list box) (vers : bytes) (kids u2 k2 post : list box) : Prop :=
  boxes_ok (mp4_file pre k1 u1 (vers ++ encs kids) u2 k2 post) /\ ftyp_first (mp4_file pre k1 u1 (vers ++ encs kids) u2 k2 post) /\
  none_named ($"moov") pre /\ none_named ($"udta") k1 /\ none_named ($"meta") u1 /\ Forall item_ok kids /\ meta_form vers kids.
(** A file with a tag that can be read *)
Definition read_file (o : mopts) (pre k1 u1 : list box) (vers : bytes) (kids u2 k2 post : list box) : Prop :=
  boxes_ok (mp4_file pre k1 u1 (vers ++ encs kids) u2 k2 post) /\ ftyp_first (mp4_file pre k1 u1 (vers ++ encs kids) u2 k2 post) /\
  none_named ($"moov") pre /\ none_named ($"udta") (k1 ++ k2) /\ none_named ($"meta") u1 /\ Forall item_ok kids /\ meta_start vers kids /\
  quiet o (k1 ++ k2) /\ Forall boring u2.
