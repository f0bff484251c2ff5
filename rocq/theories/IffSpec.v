(** IFF files as lists of chunks (EA IFF 85; RIFF with little-endian sizes). *)
From Verif Require Import Base Str.

(** A chunk identifier: four printable ASCII characters, spaces only at the end. *)
Definition id_ok (id : bytes) : Prop :=
  lenN id = 4 /\ exists name n, id = name ++ repeat 0x20 n /\ Forall (fun b => 0x21 <= b <= 0x7E) name.
Definition size32 (be : bool) (n : N) : bytes := if be then be_enc 4 n else le_enc 4 n.
(** A chunk: identifier, size, content, and a zero byte if the size is odd. *)
Definition pad_of (content : bytes) : bytes := if N.even (lenN content) then [] else [0].
Definition chunk_bytes (be : bool) (c : bytes * bytes) : bytes := fst c ++ size32 be (lenN (snd c)) ++ snd c ++ pad_of (snd c).
Definition chunk_ok (c : bytes * bytes) : Prop := id_ok (fst c) /\ lenN (snd c) < 2 ^ 32.
Definition body (be : bool) (cs : list (bytes * bytes)) : bytes := flat_map (chunk_bytes be) cs.
Definition iff_file (be : bool) (magic kind : bytes) (cs : list (bytes * bytes)) : bytes :=
  magic ++ size32 be (4 + lenN (body be cs)) ++ kind ++ body be cs.
Definition riff_file := iff_file false ($"RIFF") ($"WAVE").
