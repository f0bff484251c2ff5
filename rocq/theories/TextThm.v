(** Property theorems for text encoding (C11-C13, C42-C44). *)
From Verif Require Import BaseLemmas TextModel TextSpec TextProof.

(** C11 *)
Theorem C11_latin1_strict : forall s,
  (Forall (fun c => c <= 255) s -> latin1_encode s false = Ok s /\
     exists t, latin1_decode s = t /\ without_trailing_nuls s t) /\
  (~ Forall (fun c => c <= 255) s -> exists e, latin1_encode s false = Err e).
Proof.
  split; intros.
  - split. now apply latin1_ok. eexists. split; [reflexivity|]. apply trim_spec.
  - destruct (latin1_err s 0 H) as (a & c & b & _ & _ & _ & E). eexists. exact E.
Qed.
Print Assumptions C11_latin1_strict.
Theorem C11_latin1_lossy : forall s, exists b, latin1_encode s true = Ok b /\ length b = length s /\
  forall i c, nth_error s i = Some c -> nth_error b i = Some (if c <=? 255 then c else 63 (* '?' *)).
Proof.
  intros. eexists. split; [apply latin1_lossy|]. split. apply map_length.
  intros. rewrite nth_error_map, H. reflexivity.
Qed.
Print Assumptions C11_latin1_lossy.
Example C11_ex : latin1_encode [76; 248; 0x20AC] false = Err (mkEncErr 2) /\
  latin1_encode [76; 248; 0x20AC] true = Ok [76; 248; 63] /\ latin1_decode [76; 248; 0; 0] = [76; 248].
Proof. vm_compute. auto. Qed.

(** C12: round trip. [ne] is the endianness of the machine that writes. *)
Theorem C12_text_roundtrip : forall ne e s rest, str_ok s -> recoverable e s ->
  exists b, encode ne e s true false = Ok (b ++ terminator e) /\ enc_bytes ne e s b /\
    (exists bom, decode_text e true (0, 0) (b ++ terminator e ++ rest) = Ok (mkDec s (lenN (b ++ terminator e)) bom, rest)) /\
    encode ne e s false false = Ok b /\
    (exists bom, decode_text e false (0, 0) b = Ok (mkDec s (lenN b) bom, [])).
Proof.
  intros ne e s rest Hs Hr.
  assert (L : e = Latin1 -> Forall (fun c => c <= 255) s) by (destruct Hr; intros ->; auto).
  destruct (encode_spec ne e s true Hs L) as (b & E1 & B1).
  destruct (encode_spec ne e s false Hs L) as (b' & E2 & B2). rewrite app_nil_r in E2.
  assert (b' = b). { apply enc_bytes_det in B1; auto. apply enc_bytes_det in B2; auto. destruct e; congruence. }
  subst b'. exists b. repeat split; auto.
  - destruct (decode_terminated ne e s b rest Hs Hr B1) as (bom & E). exists bom. rewrite lenN_app. exact E.
  - destruct (decode_unterminated ne e s b Hs B1) as (bom & E). exists bom. rewrite recoverable_survives in E by auto. exact E.
Qed.
Print Assumptions C12_text_roundtrip.
Example C12_ex : str_ok [108; 248; 0x20AC; 0x1F3B5] /\ recoverable UTF16 [108; 248; 0x20AC; 0x1F3B5] /\
  encode false UTF16 [108; 248; 0x20AC; 0x1F3B5] true false = Ok [0xFF; 0xFE; 108; 0; 248; 0; 0xAC; 0x20; 0x3C; 0xD8; 0xB5; 0xDF; 0; 0].
Proof. split; [repeat constructor|]. split; [split; repeat constructor; discriminate|vm_compute; reflexivity]. Qed.
(** For arbitrary texts written without a terminator, exactly trailing NULs and (in UTF-16) the characters
    U+FEFF and U+FFFE are lost. *)
Theorem C12_what_survives : forall ne e s, str_ok s -> (e = Latin1 -> Forall (fun c => c <= 255) s) ->
  exists b t bom, encode ne e s false false = Ok b /\ decode_text e false (0, 0) b = Ok (mkDec t (lenN b) bom, []) /\
    without_trailing_nuls (match e with UTF16 | UTF16BE => filter (fun c => negb ((c =? 0xFEFF) || (c =? 0xFFFE))) s | _ => s end) t.
Proof.
  intros. destruct (encode_spec ne e s false H H0) as (b & E & B). rewrite app_nil_r in E.
  destruct (decode_unterminated ne e s b H B) as (bom & D). exists b, (survives e s), bom. repeat split; auto.
  all: destruct e; cbn [survives]; apply trim_spec.
Qed.
Print Assumptions C12_what_survives.
Theorem C12_unrestricted_refuted : exists s b d, str_ok s /\ Forall (fun c => c <> 0) s /\
  encode false UTF16BE s false false = Ok b /\ decode_text UTF16BE false (0, 0) b = Ok d /\ d_content (fst d) <> s.
Proof.
  exists [97; 0xFEFF; 98]. eexists _, _. split; [repeat constructor|]. split; [repeat constructor; discriminate|].
  split; [vm_compute; reflexivity|]. split; [vm_compute; reflexivity|]. vm_compute. discriminate.
Qed.
Print Assumptions C12_unrestricted_refuted.

(** C13 *)
Theorem C13_decode_total : forall e terminated bom r,
  match decode_text e terminated bom r with
  | Panic => False
  | Err _ => True
  | Ok (d, rest) => d_read d + lenN rest <= lenN r
  end.
Proof. exact decode_text_total. Qed.
Print Assumptions C13_decode_total.
Example C13_ex : decode_text UTF16 false (0, 0) [1; 2; 3] = Err DOddLength /\
  decode_text UTF16 true (0, 0) [0xFF; 0xFE; 65; 0; 66] = Ok (mkDec [65] 4 (0xFF, 0xFE), []).
Proof. vm_compute. auto. Qed.

(** C42: the documented "byte index in the provided string" of an encoding error is really a character index. *)
Theorem C42_error_byte_index_refuted : exists s n a c b,
  latin1_encode s false = Err (mkEncErr n) /\ s = a ++ c :: b /\ Forall (fun c => c <= 255) a /\ 255 < c /\
  n <> lenN (utf8_enc a).
Proof.
  exists [233; 0x20AC], 1, [233], 0x20AC, []. repeat split; try (vm_compute; (reflexivity || discriminate)).
  repeat constructor. discriminate.
Qed.
Print Assumptions C42_error_byte_index_refuted.
Theorem C42_error_byte_index_partial : forall s n, latin1_encode s false = Err (mkEncErr n) ->
  exists a c b, s = a ++ c :: b /\ Forall (fun c => c <= 255) a /\ 255 < c /\ n = lenN a /\
    (Forall (fun c => c < 128) a -> n = lenN (utf8_enc a)).
Proof.
  intros. assert (D : forall c, {c <= 255} + {~ c <= 255}) by (intros c; destruct (c <=? 255) eqn:E; [left|right]; lia).
  destruct (Forall_dec (fun c => c <= 255) D s) as [F|F].
  - unfold latin1_encode in H. rewrite latin1_ok in H by auto. discriminate.
  - destruct (latin1_err s 0 F) as (a & c & b & -> & Ha & Hc & E). unfold latin1_encode in H. rewrite E in H. inversion H.
    exists a, c, b. repeat split; auto. intros A. rewrite N.add_0_l. clear -A. induction A; cbn [utf8_enc]; auto.
    rewrite lenN_cons, lenN_app, IHA. unfold utf8_char. destruct (N.ltb_spec x 128); [|lia]. reflexivity.
Qed.
Print Assumptions C42_error_byte_index_partial.
Example C42_ex : latin1_encode [97; 0x20AC] false = Err (mkEncErr 1). Proof. reflexivity. Qed.

(** C43: UTF-8 text is accepted exactly when it is well-formed, and then nothing but trailing NULs is lost. *)
Theorem C43_utf8_decode_exact : forall b t, bytes_ok b ->
  (utf8_decode b = Ok t <-> exists s, str_ok s /\ mapped octets s b /\ without_trailing_nuls s t).
Proof.
  intros b t Hb. unfold utf8_decode. split.
  - destruct (utf8_dec b) as [s|] eqn:E; [|discriminate]. intros H. inversion H; subst. apply utf8_dec_spec in E as [Hs <-]; auto.
    exists s. repeat split; auto. now apply utf8_enc_mapped. all: apply trim_spec.
  - intros (s & Hs & M & T). apply mapped_utf8 in M. subst. rewrite utf8_dec_enc by auto. f_equal. symmetry. now apply trim_unique.
Qed.
Print Assumptions C43_utf8_decode_exact.
Example C43_ex : utf8_decode [0xE2; 0x82; 0xAC; 0] = Ok [0x20AC] /\ utf8_decode [0xC0; 0x80] = Err DUtf8 /\
  utf8_decode [0xED; 0xA0; 0x80] = Err DUtf8. Proof. vm_compute. auto. Qed.

(** C44: later strings of a frame may or may not repeat the byte order mark. *)
Theorem C44_utf16_maybe_bom : forall be other s rest u, str_ok s -> recoverable UTF16 s -> mapped units s u ->
  let enc l := concat (map (if (be : bool) then big_endian else little_endian) l) in
  utf16_decode_terminated_maybe_bom (enc (0xFEFF :: u) ++ [0; 0] ++ rest) other = Ok (s, lenN (enc (0xFEFF :: u)) + 2, rest) /\
  utf16_decode_terminated_maybe_bom (enc u ++ [0; 0] ++ rest) be = Ok (s, lenN (enc u) + 2, rest).
Proof.
  intros be other s rest u Hs Hr M. apply mapped_units in M. subst u. cbv zeta.
  replace (if be then big_endian else little_endian) with (u16_bytes be) by (destruct be; reflexivity).
  rewrite <- !flat_map_concat_map, !lenN_flat_u16. split.
  - pose proof (maybe_bom_spec be other true s rest Hs Hr) as H. cbn [app] in *. rewrite H by discriminate. do 3 f_equal. rewrite lenN_cons. lia.
  - pose proof (maybe_bom_spec be be false s rest Hs Hr) as H. cbn [app] in *. rewrite H; auto.
Qed.
Print Assumptions C44_utf16_maybe_bom.
Example C44_ex : utf16_decode_terminated_maybe_bom [65; 0; 0; 0; 7] false = Ok ([65], 4, [7]) /\
  utf16_decode_terminated_maybe_bom [0xFE; 0xFF; 0; 65; 0; 0; 7] false = Ok ([65], 6, [7]).
Proof. vm_compute. auto. Qed.
