(** Specification of the ID3v1.1 layout and of saving, independent of the code. *)
From Verif Require Import Base Str TextModel.
From Verif Require Import Id3v1Model.

(** The part of a text before its first NUL. *)
Fixpoint before_nul (s : str) : str :=
  match s with [] => [] | c :: s' => if c =? 0 then [] else c :: before_nul s' end.
(** What a text field of [n] characters can hold of a value. *)
Definition fits (n : N) (v : option str) : option str :=
  match v with
  | None => None
  | Some s => match before_nul (takeN n s) with [] => None | t => Some t end
  end.
Definition norm (t : id3v1) : id3v1 :=
  mkV1 (fits 30 (v1_title t)) (fits 30 (v1_artist t)) (fits 30 (v1_album t))
       (match v1_year t with Some y => Some (N.min y 9999) | None => None end)
       (fits 28 (v1_comment t))
       (match v1_track t with Some 0 => None | o => o end)
       (match v1_genre t with Some g => if g <? 192 then Some g else None | None => None end).

Definition opt_all {A} (P : A -> Prop) (o : option A) : Prop := match o with Some a => P a | None => True end.
Definition latin1_upto (n : N) (v : option str) : Prop := opt_all (fun s => Forall (fun c => c <= 255) (takeN n s)) v.
(** Every text field is representable in Latin-1 as far as it is stored. *)
Definition v1_latin1 (t : id3v1) : Prop :=
  latin1_upto 30 (v1_title t) /\ latin1_upto 30 (v1_artist t) /\ latin1_upto 30 (v1_album t) /\ latin1_upto 28 (v1_comment t).
(** u8/u16 fields are in range. *)
Definition v1_ranges (t : id3v1) : Prop :=
  opt_all (fun y => y < 65536) (v1_year t) /\ opt_all (fun y => y < 256) (v1_track t) /\ opt_all (fun y => y < 256) (v1_genre t).

(** A file is audio followed by an optional trailing tag block. *)
Inductive file_shape : bytes -> bytes -> bool -> Prop :=
| shape_tag : forall audio block, lenN block = 128 -> takeN 3 block = [84; 65; 71] -> file_shape (audio ++ block) audio true
| shape_none : forall audio, (forall a block, audio = a ++ block -> lenN block = 128 -> takeN 3 block <> [84; 65; 71]) ->
    file_shape audio audio false.
