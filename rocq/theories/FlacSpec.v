(** FLAC streams as the format documentation describes them. *)
From Verif Require Import Base Str TextModel Id3v2HeaderModel Id3v2HeaderProof.

(** The metadata blocks (type and content) and their encoding: one byte with the type, 0x80 added in the last block, three bytes
    of length, the content. *)
Inductive metadata : list (N * bytes) -> bytes -> Prop :=
| metadata_end : forall ty c, ty < 128 -> lenN c < 2 ^ 24 -> metadata [(ty, c)] ([ty + 128] ++ be_enc 3 (lenN c) ++ c)
| metadata_next : forall ty c l b, ty < 128 -> lenN c < 2 ^ 24 -> metadata l b -> metadata ((ty, c) :: l) ([ty] ++ be_enc 3 (lenN c) ++ c ++ b).

(** A comment block starts with the length of the vendor string and that string. A vendor that is no UTF-8 counts as empty. *)
Definition vendor_field (c : bytes) (v : str) : Prop :=
  exists raw rest, c = le_enc 4 (lenN raw) ++ raw ++ rest /\ lenN raw < 2 ^ 32 /\ v = match utf8_dec raw with Some s => s | None => [] end.
(** The vendor of the last comment block, or [v] if there is none. *)
Inductive retained : str -> list (N * bytes) -> str -> Prop :=
| retained_none : forall v, retained v [] v
| retained_other : forall v ty c l v', ty <> 4 -> retained v l v' -> retained v ((ty, c) :: l) v'
| retained_comments : forall v c l v1 v', vendor_field c v1 -> retained v1 l v' -> retained v ((4, c) :: l) v'.

(** What may stand before the marker: nothing or an ID3v2 tag without extended header. *)
Inductive tag_prefix : bytes -> Prop :=
| prefix_none : tag_prefix []
| prefix_id3v2 : forall major minor flags n content footer,
    n < 2 ^ 32 -> (major = 2 \/ major = 3 \/ major = 4) /\ N.testbit flags 6 = false ->
    lenN content = unsynch32 n -> lenN footer = (if negb (major =? 2) && N.testbit flags 4 then 10 else 0) ->
    tag_prefix (hdr_bytes major minor flags n ++ content ++ footer).
