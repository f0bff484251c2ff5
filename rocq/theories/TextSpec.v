(** Specification of text encodings, independent of the code's control flow. *)
From Verif Require Import Base.
From Verif Require Import TextModel.

(** The text without its trailing NULs: the unique [t] with [s = t ++ NULs] and no NUL at the end of [t]. *)
Definition without_trailing_nuls (s t : str) : Prop :=
  (exists n, s = t ++ repeat 0 n) /\ last t 1 <> 0.

(** Byte-wise description of the four ID3v2 encodings of a text (ID3v2.4.0-structure section 4). *)
Definition big_endian (u : N) : bytes := [u / 256; u mod 256].
Definition little_endian (u : N) : bytes := [u mod 256; u / 256].
(** RFC 2781: code units of one scalar value. *)
Inductive units : N -> list N -> Prop :=
| units_bmp : forall c, c < 0x10000 -> units c [c]
| units_pair : forall hi lo, hi < 1024 -> lo < 1024 -> units (0x10000 + hi * 1024 + lo) [0xD800 + hi; 0xDC00 + lo].
(** RFC 3629: bytes of one scalar value. *)
Inductive octets : N -> bytes -> Prop :=
| oct1 : forall a, a < 0x80 -> octets a [a]
| oct2 : forall a b, a < 32 -> b < 64 -> 0x80 <= a * 64 + b -> octets (a * 64 + b) [0xC0 + a; 0x80 + b]
| oct3 : forall a b c, a < 16 -> b < 64 -> c < 64 -> 0x800 <= (a * 64 + b) * 64 + c ->
    octets ((a * 64 + b) * 64 + c) [0xE0 + a; 0x80 + b; 0x80 + c]
| oct4 : forall a b c d, a < 8 -> b < 64 -> c < 64 -> d < 64 -> 0x10000 <= ((a * 64 + b) * 64 + c) * 64 + d ->
    octets (((a * 64 + b) * 64 + c) * 64 + d) [0xF0 + a; 0x80 + b; 0x80 + c; 0x80 + d].
Inductive mapped (R : N -> list N -> Prop) : str -> list N -> Prop :=
| mapped_nil : mapped R [] []
| mapped_cons : forall c s u l, R c u -> mapped R s l -> mapped R (c :: s) (u ++ l).

Definition enc_bytes (ne_be : bool) (e : encoding) (s : str) (b : bytes) : Prop :=
  match e with
  | Latin1 => b = s /\ Forall (fun c => c <= 255) s
  | UTF8 => mapped octets s b
  | UTF16 => exists u, mapped units s u /\
       b = concat (map (if ne_be then big_endian else little_endian) (0xFEFF :: u))
  | UTF16BE => exists u, mapped units s u /\ b = concat (map big_endian u)
  end.
Definition terminator (e : encoding) : bytes := match e with Latin1 | UTF8 => [0] | _ => [0; 0] end.

(** Texts whose exact recovery is possible in the encoding: no NULs, and no byte order marks in UTF-16. *)
Definition recoverable (e : encoding) (s : str) : Prop :=
  Forall (fun c => c <> 0) s /\
  match e with
  | Latin1 => Forall (fun c => c <= 255) s
  | UTF8 => True
  | UTF16 | UTF16BE => Forall (fun c => c <> 0xFEFF /\ c <> 0xFFFE) s
  end.
