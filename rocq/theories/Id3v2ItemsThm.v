(** Theorems about the SYLT, GEOB and ATXT helpers. *)
From Verif Require Import BaseLemmas TextSpec TextProof FrameModel FrameSpec FrameProof1 FrameTotalProof Id3v2ItemsModel.

(** ** C218: reading of SYLT frames *)
(** A text with its terminator. [d]: the byte order that the description's mark gives, if it has one. *)
Inductive described : encoding -> option bool -> str -> bytes -> Prop :=
| D_plain : forall ne e s b, e <> UTF16 -> terminated_ok e s -> enc_bytes ne e s b -> described e None s (b ++ terminator e)
| D_mark : forall be s, terminated_ok UTF16 s -> described UTF16 (Some be) s (flat_map (u16_bytes be) (0xFEFF :: utf16_units s) ++ [0; 0])
| D_empty : described UTF16 None [] [0; 0].
Inductive line (e : encoding) (d : option bool) : str -> bytes -> Prop :=
| L_plain : forall ne s b, e <> UTF16 -> terminated_ok e s -> enc_bytes ne e s b -> line e d s (b ++ terminator e)
| L_mark : forall be s, e = UTF16 -> terminated_ok UTF16 s -> line e d s (flat_map (u16_bytes be) (0xFEFF :: utf16_units s) ++ [0; 0])
| L_same : forall be s, e = UTF16 -> d = Some be -> terminated_ok UTF16 s -> line e d s (flat_map (u16_bytes be) (utf16_units s) ++ [0; 0])
| L_empty : e = UTF16 -> d = None -> line e d [] [0; 0].
Inductive lines (e : encoding) (d : option bool) : list (N * str) -> bytes -> Prop :=
| LS_nil : lines e d [] []
| LS_cons : forall t s b l r, t < 2 ^ 32 -> line e d s b -> lines e d l r -> lines e d ((t, s) :: l) (b ++ be_enc 4 t ++ r).

Lemma read_be4 : forall t r, t < 2 ^ 32 -> read_be 4 (be_enc 4 t ++ r) = Some (t, r).
Proof. intros t r L. now apply read_be_app. Qed.
Lemma dec_mark : forall be s r, terminated_ok UTF16 s -> dec_term UTF16 ((flat_map (u16_bytes be) (0xFEFF :: utf16_units s) ++ [0; 0]) ++ r) = Ok (mkDec s (lenN (flat_map (u16_bytes be) (0xFEFF :: utf16_units s) ++ [0; 0])) (bom_bytes be), r).
Proof.
  intros be s r T. pose proof T as (SO & RC).
  assert (B : enc_bytes be UTF16 s (flat_map (u16_bytes be) (0xFEFF :: utf16_units s))). { destruct (encode_spec be UTF16 s false SO) as (b & E & EB); [discriminate|]. cbn in E. unfold utf16_encode in E. rewrite !app_nil_r in E. injection E as <-. exact EB. }
  destruct (dec_term_enc be UTF16 s _ r T B) as (n & bom & E & _ & HB). specialize (HB eq_refl). subst bom. cbn [terminator] in E.
  unfold dec_term in *. destruct (decode_terminated be UTF16 s _ r SO RC B) as (bom' & E'). cbn [terminator] in E'. rewrite <- app_assoc in *. rewrite E' in *. cbn [as_ferr] in *. injection E as <- ->. rewrite lenN_app. reflexivity.
Qed.
Lemma dec_plain : forall ne e s b r, terminated_ok e s -> enc_bytes ne e s b -> exists bom, dec_term e ((b ++ terminator e) ++ r) = Ok (mkDec s (lenN (b ++ terminator e)) bom, r).
Proof.
  intros ne e s b r (SO & RC) B. destruct (decode_terminated ne e s b r SO RC B) as (bom & E). exists bom. unfold dec_term. rewrite <- app_assoc, E, lenN_app. reflexivity.
Qed.
Lemma term_pos : forall e, 0 < lenN (terminator e).
Proof. destruct e; reflexivity. Qed.
Lemma loop_lines : forall e d, (d <> None -> e = UTF16) -> forall l b, lines e d l b -> forall fuel pos acc, (length b <= fuel)%nat -> sylt_loop fuel e d pos (pos + lenN b) acc b = Ok (acc ++ l).
Proof.
  intros e d DE l b LS. induction LS as [|t s b l r T L LS IH]; intros fuel pos acc F.
  - destruct fuel; cbn; rewrite N.add_0_r, N.ltb_irrefl; now rewrite app_nil_r.
  - assert (P : 0 < lenN b). { destruct L as [ne s b NE _ _|be s _ _|be s _ _ _|_ _]; rewrite ?lenN_app; try (pose proof (term_pos e)); change (lenN [0; 0]) with 2; lia. }
    destruct fuel as [|fuel]; [rewrite app_length in F; unfold lenN in P; lia|]. cbn [sylt_loop]. rewrite !lenN_app, be_enc_len. change (N.of_nat 4) with 4. replace (pos <? pos + (lenN b + (4 + lenN r))) with true by lia.
    assert (R : (match d with Some be => as_ferr (utf16_decode_terminated_maybe_bom (b ++ be_enc 4 t ++ r) be) EText
       | None => let? (d, r) := dec_term e (b ++ be_enc 4 t ++ r) in Ok (d_content d, d_read d, r) end) = Ok (s, lenN b, be_enc 4 t ++ r)).
    { destruct L as [ne s b NE TO EB|be s E TO|be s E D TO|E D].
      - destruct d; [exfalso; apply NE, DE; discriminate|]. destruct (dec_plain ne e s b (be_enc 4 t ++ r) TO EB) as (bom & ->). reflexivity.
      - subst e. destruct d as [be'|].
        + rewrite <- app_assoc. destruct TO as (SO & RC). assert (M := maybe_bom_spec be be' true s (be_enc 4 t ++ r) SO RC ltac:(discriminate)). cbv iota in M. cbn [app] in M |- *. rewrite M. cbn [as_ferr]. rewrite !lenN_app, lenN_flat_u16, lenN_cons. do 3 f_equal. change (lenN [0; 0]) with 2. lia.
        + rewrite dec_mark by auto. reflexivity.
      - subst e d. rewrite <- app_assoc. destruct TO as (SO & RC). assert (M := maybe_bom_spec be be false s (be_enc 4 t ++ r) SO RC ltac:(auto)). cbv iota in M. cbn [app] in M |- *. rewrite M. cbn [as_ferr]. rewrite !lenN_app, lenN_flat_u16. do 3 f_equal.
      - subst e d. reflexivity. }
    rewrite R. cbn [bind]. rewrite read_be4 by auto. cbn [from_opt bind]. replace (pos + (lenN b + (4 + lenN r))) with (pos + lenN b + 4 + lenN r) by lia. rewrite IH.
    + now rewrite <- app_assoc.
    + rewrite !app_length in F. unfold lenN in P. lia.
Qed.
(** In any order of bytes, with a mark in front of every text or only of the description: *)
Theorem C218_layout : forall e lang f t desc d db content cb, length lang = 3%nat -> Forall letter lang -> t <= 8 -> described e d desc db -> lines e d content cb ->
  sylt_parse (enc_to_u8 e :: lang ++ ts_format_u8 f :: t :: db ++ cb) = Ok (mkSylt e lang f t (match desc with [] => None | _ => Some desc end) content).
Proof.
  intros e lang f t desc d db content cb L3 LL T8 DB LS. unfold sylt_parse.
  assert (P : 0 < lenN db). { destruct DB as [ne e s b _ _ _|be s _|]; rewrite ?lenN_app; try (pose proof (term_pos e)); change (lenN [0; 0]) with 2; lia. }
  assert (LN : lenN lang = 3) by (unfold lenN; now rewrite L3). replace (lenN _ <? 7) with false by (rewrite lenN_cons, lenN_app, !lenN_cons, lenN_app, LN; lia). cbn [read_u8 from_opt bind].
  replace (enc_of_u8 (enc_to_u8 e)) with (Some e) by now destruct e. cbn [from_opt bind]. rewrite read_exact_app by auto. cbn [from_opt bind].
  replace (existsb (fun c => negb (is_alpha c)) lang) with false. 2:{ symmetry. clear -LL. induction LL; cbn [existsb]; auto. rewrite alpha_letter, IHLL by auto. reflexivity. }
  cbn [read_u8 from_opt bind]. replace (ts_format_of (ts_format_u8 f)) with (Some f) by now destruct f. cbn [from_opt bind]. unfold sync_type_of. replace (t <=? 8) with true by lia. cbn [from_opt bind].
  assert (DD : exists dd, dec_term e (db ++ cb) = Ok (dd, cb) /\ d_content dd = desc /\
     match e with UTF16 => if bom_eqb (d_bom dd) (0xFF, 0xFE) then Some false else if bom_eqb (d_bom dd) (0xFE, 0xFF) then Some true else None | _ => None end = d).
  { destruct DB as [ne e s b NE TO EB|be s TO|].
    - destruct (dec_plain ne e s b cb TO EB) as (bom & ->). eexists. split; [reflexivity|]. split; [reflexivity|]. destruct e; auto. congruence.
    - rewrite dec_mark by auto. eexists. split; [reflexivity|]. split; [reflexivity|]. destruct be; reflexivity.
    - eexists. split; [reflexivity|]. split; reflexivity. }
  destruct DD as (dd & -> & E1 & E2). cbn [bind]. rewrite E2, E1. assert (LP := loop_lines e d). rewrite <- (N.add_0_l (lenN cb)). rewrite (LP) with (l := content); auto. intros ND. destruct DB; auto; congruence.
Qed.

(** Nothing else is accepted: a frame that is read accounts for every byte. *)
Definition cut_text (e : encoding) (b : bytes) : Prop := exists raw, b = raw ++ terminator e.
Inductive cut (e : encoding) : list (N * str) -> bytes -> Prop :=
| C_nil : cut e [] []
| C_cons : forall t s b l r, t < 2 ^ 32 -> cut_text e b -> cut e l r -> cut e ((t, s) :: l) (b ++ be_enc 4 t ++ r).
Lemma nul_cut : forall r t n rest, read_to_nul r = (t, n, rest) -> rest = [] \/ r = t ++ 0 :: rest /\ n = 1.
Proof.
  induction r as [|b r IH]; cbn; intros t n rest E; [injection E as <- <- <-; auto|]. destruct (N.eqb_spec b 0) as [->|NZ]; [injection E as <- <- <-; auto|]. destruct (read_to_nul r) as [[t' n'] rest'] eqn:R. injection E as <- <- <-.
  destruct (IH _ _ _ eq_refl) as [->|[-> ->]]; auto.
Qed.
Lemma nul16_cut : forall k r t n rest, (length r <= k)%nat -> read_to_nul16 r = (t, n, rest) -> rest = [] \/ r = t ++ 0 :: 0 :: rest /\ n = 2.
Proof.
  induction k as [|k IH]; intros [|a [|b r]] t n rest L E; cbn [read_to_nul16] in E; try (injection E as <- <- <-; auto; fail); [cbn in L; lia|]. destruct ((a =? 0) && (b =? 0)) eqn:Z.
  - injection E as <- <- <-. right. apply andb_true_iff in Z as [Za Zb]. apply N.eqb_eq in Za, Zb. subst. auto.
  - destruct (read_to_nul16 r) as [[t' n'] rest'] eqn:R. injection E as <- <- <-. destruct (IH r _ _ _ ltac:(cbn in L; lia) R) as [->|[-> ->]]; auto.
Qed.
Lemma term_cut : forall r e t n rest, read_to_terminator r e = (t, n, rest) -> rest = [] \/ r = (t ++ terminator e) ++ rest /\ n = lenN (terminator e).
Proof.
  intros r e t n rest E. destruct e; cbn [read_to_terminator] in E; (apply nul_cut in E || apply (nul16_cut (length r)) in E; auto); destruct E as [->|[-> ->]]; auto; right; rewrite <- app_assoc; auto.
Qed.
(** One text of the loop *)
Definition text_step (e : encoding) (endian : option bool) (r : bytes) : res ferr (str * N * bytes) :=
  match endian with
  | Some be => as_ferr (utf16_decode_terminated_maybe_bom r be) EText
  | None => let? (d, r) := dec_term e r in Ok (d_content d, d_read d, r)
  end.
Lemma step_cut : forall e d r s n rest, (d <> None -> e = UTF16) -> text_step e d r = Ok (s, n, rest) -> rest = [] \/ exists b, r = b ++ rest /\ cut_text e b /\ n = lenN b.
Proof.
  intros e d r s n rest DE E. unfold text_step in E. destruct d as [be|].
  - rewrite DE by discriminate. unfold utf16_decode_terminated_maybe_bom in E. destruct (read_to_terminator r UTF16) as [[raw tn] r'] eqn:R.
    match type of E with as_ferr (bind ?z _) _ = _ => destruct z as [s'| |] end; cbn in E; try discriminate. injection E as <- <- <-. destruct (term_cut _ _ _ _ _ R) as [->|[-> ->]]; auto. right. eexists. split; [reflexivity|]. split; [eexists; reflexivity|]. now rewrite lenN_app.
  - unfold dec_term, decode_text in E. destruct (read_to_terminator r e) as [[raw tn] r'] eqn:R. apply term_cut in R. destruct raw as [|x raw].
    + cbn in E. injection E as <- <- <-. destruct R as [->|[-> ->]]; auto. right. eexists. split; [reflexivity|]. split; [now exists []|reflexivity].
    + destruct (decode_raw e (0, 0) (x :: raw)) as [[s' bm]| |]; cbn [bind as_ferr d_content d_read] in E; try discriminate. injection E as <- <- <-. destruct R as [->|[-> ->]]; auto. right. eexists. split; [reflexivity|]. split; [eexists; reflexivity|]. now rewrite lenN_app.
Qed.
Lemma loop_step : forall fuel e d pos total acc r, sylt_loop (S fuel) e d pos total acc r =
  if pos <? total then let? (text, n, r) := text_step e d r in let? (time, r) := from_opt (read_be 4 r) EEof in sylt_loop fuel e d (pos + n + 4) total (acc ++ [(time, text)]) r else Ok acc.
Proof. reflexivity. Qed.
Lemma loop_cut : forall e d, (d <> None -> e = UTF16) -> forall fuel pos acc r l, bytes_ok r -> sylt_loop fuel e d pos (pos + lenN r) acc r = Ok l -> exists l', l = acc ++ l' /\ cut e l' r.
Proof.
  intros e d DE fuel. induction fuel as [|fuel IH]; intros pos acc r l BO E.
  - cbn [sylt_loop] in E. destruct (N.ltb_spec pos (pos + lenN r)); [discriminate|]. injection E as <-. exists []. rewrite app_nil_r. split; auto. destruct r; [constructor|rewrite lenN_cons in *; lia].
  - rewrite loop_step in E. destruct (N.ltb_spec pos (pos + lenN r)); [|injection E as <-; exists []; rewrite app_nil_r; split; auto; destruct r; [constructor|rewrite lenN_cons in *; lia]].
    destruct (text_step e d r) as [[[s n] rest]| |] eqn:T; cbn [bind] in E; try discriminate. destruct (read_be 4 rest) as [[t r']|] eqn:R; cbn [from_opt bind] in E; [|discriminate].
    unfold read_be in R. destruct (read_exact 4 rest) as [[tb r'']|] eqn:X; [|discriminate]. injection R as <- <-. apply read_exact_spec in X as (-> & L4).
    destruct (step_cut _ _ _ _ _ _ DE T) as [Z|(b & -> & CT & ->)]; [destruct tb; [discriminate L4|discriminate Z]|].
    apply Forall_app in BO as [_ BO]. apply Forall_app in BO as [B4 BO]. rewrite !lenN_app, L4 in E. replace (pos + (lenN b + (4 + lenN r''))) with (pos + lenN b + 4 + lenN r'') in E by lia.
    apply IH in E as (l' & -> & C); auto. exists ((be_dec tb, s) :: l'). split; [now rewrite <- app_assoc|].
    assert (length tb = 4%nat) by (unfold lenN in L4; lia). replace (b ++ tb ++ r'') with (b ++ be_enc 4 (be_dec tb) ++ r'') by (replace 4%nat with (length tb); now rewrite be_enc_dec). constructor; auto.
    pose proof (be_dec_bound tb B4) as BB. rewrite L4 in BB. exact BB.
Qed.
Theorem C218_accepted : forall data f, bytes_ok data -> sylt_parse data = Ok f -> exists db cb,
  data = enc_to_u8 (sy_enc f) :: sy_lang f ++ ts_format_u8 (sy_format f) :: sy_type f :: db ++ cb /\
  length (sy_lang f) = 3%nat /\ Forall letter (sy_lang f) /\ sy_type f <= 8 /\ sy_desc f <> Some [] /\ cut (sy_enc f) (sy_content f) cb.
Proof.
  intros data f BO E. unfold sylt_parse in E. destruct (N.ltb_spec (lenN data) 7) as [|L7]; [discriminate|]. destruct data as [|b r]; [discriminate|]. cbn [read_u8 from_opt bind] in E.
  destruct (enc_of_u8 b) as [e|] eqn:EN; [|discriminate]. assert (b = enc_to_u8 e) as ->. { clear -EN. unfold enc_of_u8 in EN. destruct b as [|[[|[]|]|[]|]]; try discriminate; injection EN as <-; reflexivity. }
  cbn [from_opt bind] in E. destruct (read_exact 3 r) as [[lang r1]|] eqn:R3; [|discriminate]. apply read_exact_spec in R3 as (-> & L3). cbn [from_opt bind] in E. destruct (existsb _ lang) eqn:AL; [discriminate|].
  destruct r1 as [|fb r1]; [discriminate|]. cbn [read_u8 from_opt bind] in E. destruct (ts_format_of fb) as [tf|] eqn:TF; [|discriminate]. assert (fb = ts_format_u8 tf) as ->. { clear -TF. unfold ts_format_of in TF. destruct (N.eqb_spec fb 1); [|destruct (N.eqb_spec fb 2); [|discriminate]]; injection TF as <-; auto. }
  cbn [from_opt bind] in E. destruct r1 as [|tb r1]; [discriminate|]. cbn [read_u8 from_opt bind] in E. unfold sync_type_of in E. destruct (N.leb_spec tb 8); [|discriminate]. cbn [from_opt bind] in E.
  destruct (dec_term e r1) as [[d r2]| |] eqn:DT; cbn [bind] in E; try discriminate.
  set (endian := match e with UTF16 => _ | _ => _ end) in E. assert (DE : endian <> None -> e = UTF16) by (subst endian; destruct e; auto; congruence). clearbody endian.
  destruct (sylt_loop _ _ _ _ _ _ _) as [content| |] eqn:LP; cbn [bind] in E; try discriminate. injection E as <-. cbn [sy_enc sy_lang sy_format sy_type sy_desc sy_content].
  apply Forall_cons_iff in BO as [_ BO]. apply Forall_app in BO as [_ BO]. apply Forall_cons_iff in BO as [_ BO]. apply Forall_cons_iff in BO as [_ BO].
  assert (SP : exists db, r1 = db ++ r2 \/ r2 = [] /\ r1 = db).
  { unfold dec_term, decode_text in DT. destruct (read_to_terminator r1 e) as [[raw tn] r'] eqn:R. apply term_cut in R. assert (r' = r2) as ->. { destruct raw; [now injection DT|]. destruct (decode_raw _ _ _) as [[? ?]| |]; cbn in DT; try discriminate. now injection DT. }
    destruct R as [->|[-> _]]; [exists r1; auto|eexists; left; reflexivity]. }
  assert (exists db, r1 = db ++ r2) as (db & ->). { destruct SP as (db & [->|[-> ->]]); [eauto|exists db; now rewrite app_nil_r]. }
  apply Forall_app in BO as [_ BO]. rewrite <- (N.add_0_l (lenN r2)) in LP. apply loop_cut in LP as (l' & -> & C); auto. exists db, r2. split; [reflexivity|]. split; [unfold lenN in L3; lia|]. split.
  - clear -AL. induction lang as [|c l IH]; [constructor|]. cbn [existsb] in AL. apply orb_false_iff in AL as [A1 A2]. constructor; auto. unfold is_alpha, is_upper, letter in *. lia.
  - split; auto. split; [destruct (d_content d); discriminate|]. exact C.
Qed.
Lemma step_fine : forall e d r, match text_step e d r with Panic => False | Err _ => True | Ok (_, _, rest) => (length rest <= length r)%nat end.
Proof.
  intros e d r. unfold text_step. destruct d as [be|].
  - unfold utf16_decode_terminated_maybe_bom. destruct (read_to_terminator r UTF16) as [[raw n] rest] eqn:E. apply read_to_terminator_total in E.
    match goal with |- context [bind ?z _] => assert (Z : z <> Panic) end.
    { destruct raw as [|p [|q raw]]; try apply utf16_decode_nopanic. repeat match goal with |- (if ?c then _ else _) <> _ => destruct c end; apply utf16_decode_nopanic. }
    match goal with |- context [bind ?z _] => destruct z as [s| |] end; cbn; auto. unfold lenN in E. lia.
  - unfold dec_term. pose proof (decode_text_total e true (0, 0) r) as T. destruct (decode_text e true (0, 0) r) as [[d x]| |]; cbn; auto. unfold lenN in T. lia.
Qed.
Lemma loop_fine : forall e d fuel pos total acc r, (length r <= fuel)%nat -> (fuel = O -> pos = total) -> sylt_loop fuel e d pos total acc r <> Panic.
Proof.
  intros e d fuel. induction fuel as [|fuel IH]; intros pos total acc r L Z.
  - rewrite Z by auto. cbn. rewrite N.ltb_irrefl. discriminate.
  - rewrite loop_step. destruct (pos <? total); [|discriminate]. pose proof (step_fine e d r) as ST. destruct (text_step e d r) as [[[s n] rest]| |]; cbn [bind]; [|discriminate|destruct ST].
    unfold read_be. destruct (read_exact 4 rest) as [[tb r']|] eqn:R; cbn [from_opt bind]; [|discriminate]. apply read_exact_spec in R as (-> & L4). rewrite app_length in ST. unfold lenN in L4. destruct fuel as [|fuel].
    + lia.
    + apply IH; [lia|discriminate].
Qed.
Theorem C218_total : forall data, sylt_parse data <> Panic.
Proof.
  intros data. unfold sylt_parse. destruct (_ <? _); [discriminate|]. repeat match goal with |- bind (from_opt ?o _) _ <> _ => destruct o as [?|]; cbn [from_opt bind]; [|discriminate] | |- (let (_, _) := ?p in _) <> _ => destruct p | |- (if ?c then _ else _) <> _ => destruct c; [discriminate|] | |- match ?p with (_, _) => _ end <> _ => destruct p end.
  unfold dec_term. match goal with |- context [decode_text ?e true (0, 0) ?r] => pose proof (decode_text_total e true (0, 0) r) as T; destruct (decode_text e true (0, 0) r) as [[d x]| |]; cbn [as_ferr bind]; [|discriminate|destruct T] end.
  match goal with |- bind ?z _ <> _ => assert (Z : z <> Panic) end. { apply loop_fine; auto. intros Z. destruct x; [reflexivity|discriminate]. }
  match goal with |- bind ?z _ <> _ => destruct z end; cbn [bind]; congruence.
Qed.
Example C218_example :
  let utf16 s := flat_map (u16_bytes false) s ++ [0; 0] in
  sylt_parse ([1] ++ $"eng" ++ [2; 1] ++ utf16 (0xFEFF :: $"D") ++ utf16 ($"a") ++ [0; 0; 0; 5] ++ utf16 (0xFEFF :: $"b") ++ [0; 0; 1; 0]) = Ok (mkSylt UTF16 ($"eng") MS 1 (Some ($"D")) [(5, $"a"); (256, $"b")]) /\
  sylt_parse ([0] ++ $"eng" ++ [2; 1] ++ $"D" ++ [0] ++ $"a") = Err EEof /\ sylt_parse ([0] ++ $"e-g" ++ [2; 1; 0]) = Err ELang.
Proof. repeat split; vm_compute; reflexivity. Qed.

(** ** C219: SYLT frames read back as they were written *)
Definition sylt_ok (f : sylt) : Prop :=
  length (sy_lang f) = 3%nat /\ Forall letter (sy_lang f) /\ sy_type f <= 8 /\ terminated_ok (sy_enc f) (text_or_empty (sy_desc f)) /\ Forall (fun x => fst x < 2 ^ 32 /\ terminated_ok (sy_enc f) (snd x)) (sy_content f).
Definition mark (w : wopts) (e : encoding) : option bool := match e with UTF16 => Some (w_ne w) | _ => None end.
Lemma utf16_written : forall w s, enc_text w UTF16 s true = Ok (flat_map (u16_bytes (w_ne w)) (0xFEFF :: utf16_units s) ++ [0; 0]).
Proof. intros w s. unfold enc_text. cbn [encode as_ferr]. unfold utf16_encode. cbn [flat_map]. now rewrite <- app_assoc. Qed.
Lemma written_desc : forall w e s, terminated_ok e s -> exists b, enc_text w e s true = Ok b /\ described e (mark w e) s b.
Proof.
  intros w e s T. destruct (encoding_eqb e UTF16) eqn:E.
  - assert (e = UTF16) as -> by (destruct e; try discriminate; auto). eexists. split; [apply utf16_written|]. now apply D_mark.
  - pose proof T as (SO & RC). destruct (enc_text_spec w e s true SO) as (b & -> & EB); [now apply term_latin|]. eexists. split; [reflexivity|]. replace (mark w e) with (@None bool) by (destruct e; auto; discriminate). apply (D_plain (w_ne w)); auto. intros ->. discriminate.
Qed.
Lemma written_line : forall w e s, terminated_ok e s -> exists b, enc_text w e s true = Ok b /\ line e (mark w e) s b.
Proof.
  intros w e s T. destruct (encoding_eqb e UTF16) eqn:E.
  - assert (e = UTF16) as -> by (destruct e; try discriminate; auto). eexists. split; [apply utf16_written|]. now apply L_mark.
  - pose proof T as (SO & RC). destruct (enc_text_spec w e s true SO) as (b & -> & EB); [now apply term_latin|]. eexists. split; [reflexivity|]. apply (L_plain _ _ (w_ne w)); auto. intros ->. discriminate.
Qed.
Lemma written_lines : forall w e l, Forall (fun x => fst x < 2 ^ 32 /\ terminated_ok e (snd x)) l -> exists b, sylt_lines w e l = Ok b /\ lines e (mark w e) l b.
Proof.
  intros w e l F. induction F as [|[t s] l (T & TO) F (b & E & L)]; [exists []; split; [reflexivity|constructor]|]. cbn [fst snd] in *. destruct (written_line w e s TO) as (b1 & E1 & L1). cbn [sylt_lines]. rewrite E1. cbn [bind]. rewrite E. cbn [bind]. eexists. split; [reflexivity|]. now constructor.
Qed.
Theorem C219_roundtrip : forall w f, sylt_ok f -> w_v23 w = false \/ sy_enc f = Latin1 \/ sy_enc f = UTF16 ->
  exists b, sylt_bytes w f = (if 2 ^ 32 - 1 <? lenN b then Err ETooMuch else Ok b) /\ sylt_parse b = Ok (mkSylt (sy_enc f) (sy_lang f) (sy_format f) (sy_type f) (text_or_none (text_or_empty (sy_desc f))) (sy_content f)).
Proof.
  intros w [e lang tf t desc content] (L3 & LL & T8 & TD & F) V. cbn [sy_enc sy_lang sy_format sy_type sy_desc sy_content] in *. unfold sylt_bytes. cbn [sy_enc sy_lang sy_format sy_type sy_desc sy_content].
  replace (negb (forallb is_alpha lang)) with false. 2:{ symmetry. apply negb_false_iff, forallb_forall. intros c I. apply alpha_letter. rewrite Forall_forall in LL. auto. }
  replace (w_enc w e) with e. 2:{ unfold w_enc. destruct V as [->|[->| ->]]; auto; now destruct (w_v23 w). }
  destruct (written_desc w e _ TD) as (db & -> & D). cbn [bind]. destruct (written_lines w e _ F) as (cb & -> & L). cbn [bind]. eexists. split; [reflexivity|]. erewrite C218_layout by eauto. reflexivity.
Qed.
(** In ID3v2.3 UTF-16 is written in place of UTF-8 and UTF-16BE, but the frame still says UTF-8 or UTF-16BE. *)
Theorem C219_v23_utf8_refuted : forall w f b, w_v23 w = true -> sy_enc f = UTF8 -> length (sy_lang f) = 3%nat -> sy_type f <= 8 -> sylt_bytes w f = Ok b -> sylt_parse b = Err EText.
Proof.
  intros w [e lang tf t desc content] b V E L3 T8 B. cbn [sy_enc sy_lang sy_type] in *. subst e. unfold sylt_bytes in B. cbn [sy_enc sy_lang sy_format sy_type sy_desc sy_content] in B. destruct (forallb is_alpha lang) eqn:AL; [|discriminate]. cbn [negb] in B.
  unfold w_enc in B. rewrite V in B. cbn [to_id3v23] in B. rewrite utf16_written in B. cbn [bind] in B. destruct (sylt_lines _ _ _) as [c| |]; cbn [bind] in B; try discriminate. destruct (_ <? _); [discriminate|]. injection B as <-.
  unfold sylt_parse. assert (LN : lenN lang = 3) by (unfold lenN; now rewrite L3). match goal with |- (if ?c then _ else _) = _ => replace c with false end. 2:{ symmetry. rewrite lenN_cons, lenN_app, !lenN_cons, !lenN_app, LN. change (lenN [0; 0]) with 2. lia. }
  cbn [read_u8 from_opt bind enc_to_u8 enc_of_u8]. rewrite read_exact_app by auto. cbn [from_opt bind].
  replace (existsb (fun c => negb (is_alpha c)) lang) with false. 2:{ symmetry. clear -AL. induction lang as [|x l IH]; auto. cbn in *. apply andb_true_iff in AL as [-> AL]. now rewrite IH. }
  cbn [read_u8 from_opt bind]. replace (ts_format_of (ts_format_u8 tf)) with (Some tf) by now destruct tf. cbn [from_opt bind]. unfold sync_type_of. replace (t <=? 8) with true by lia. cbn [from_opt bind].
  rewrite <- app_assoc. cbn [flat_map]. match goal with |- context [dec_term UTF8 ?d] => assert (X : dec_term UTF8 d = Err EText) end; [|now rewrite X].
  unfold dec_term, decode_text. cbn [read_to_terminator]. destruct (w_ne w); cbn [u16_bytes]; [change (0xFEFF / 256) with 0xFE; change (0xFEFF mod 256) with 0xFF|change (0xFEFF / 256) with 0xFE; change (0xFEFF mod 256) with 0xFF]; cbn [app read_to_nul N.eqb Pos.eqb];
    match goal with |- context [read_to_nul ?l] => destruct (read_to_nul l) as [[raw n] rest] end; reflexivity.
Qed.
Theorem C219_v23_utf16be_refuted : exists w f b f', w_v23 w = true /\ sylt_ok f /\ sylt_bytes w f = Ok b /\ sylt_parse b = Ok f' /\ sy_desc f = Some ($"A") /\ sy_desc f' = Some [0x4100].
Proof.
  exists (mkW true true false None), (mkSylt UTF16BE ($"eng") MS 1 (Some ($"A")) []). eexists. eexists. split; [reflexivity|]. split.
  - repeat split; repeat constructor; vm_compute; intuition discriminate.
  - split; [vm_compute; reflexivity|]. split; [vm_compute; reflexivity|]. split; reflexivity.
Qed.
Example C219_example : sylt_bytes (mkW true true false None) (mkSylt Latin1 ($"eng") MS 1 None [(5, $"a")]) = Ok ([0] ++ $"eng" ++ [2; 1; 0; 97; 0; 0; 0; 0; 5]).
Proof. vm_compute. reflexivity. Qed.

(** ** C220: GEOB frames *)
Definition geob_ok (e : encoding) (f : geob) : Prop :=
  Forall (fun c => 0 < c < 128) (text_or_empty (ge_mime f)) /\ terminated_ok e (text_or_empty (ge_name f)) /\ terminated_ok e (text_or_empty (ge_desc f)).
Definition full (o : option str) : option str := text_or_none (text_or_empty o).
Lemma ascii_latin1 : forall s r, Forall (fun c => 0 < c < 128) s -> exists n bom, dec_term Latin1 (s ++ 0 :: r) = Ok (mkDec s n bom, r).
Proof.
  intros s r F. assert (TO : terminated_ok Latin1 s). { split; [|split]; (eapply Forall_impl; [|exact F]); cbv beta; intros c L; try (apply scalar_bound); lia. }
  destruct (dec_term_enc false Latin1 s s r TO) as (n & bom & E & _). { split; auto. apply TO. } exists n, bom. rewrite <- app_assoc in E. exact E.
Qed.
Lemma ascii_utf8 : forall s, Forall (fun c => 0 < c < 128) s -> utf8_enc s = s.
Proof. intros s F. apply utf8_ascii'. eapply Forall_impl; [|exact F]. cbv beta. lia. Qed.
Lemma written_text : forall w e s, terminated_ok e s -> exists b, enc_text w e s true = Ok b /\ 0 < lenN b /\ forall r, exists n bom, dec_term e (b ++ r) = Ok (mkDec s n bom, r).
Proof.
  intros w e s T. pose proof T as (SO & RC). destruct (enc_text_spec w e s true SO) as (b & -> & EB); [now apply term_latin|]. eexists. split; [reflexivity|]. split; [rewrite lenN_app; pose proof (term_pos e); lia|]. intros r. destruct (dec_term_enc _ _ _ _ r T EB) as (n & bom & E & _). eauto.
Qed.
Theorem C220_roundtrip : forall w f, geob_ok (stored (w_v23 w) (ge_enc f)) f ->
  exists b, geob_bytes w f = Ok b /\ geob_parse b = Ok (mkGeob (stored (w_v23 w) (ge_enc f)) (full (ge_mime f)) (full (ge_name f)) (full (ge_desc f)) (ge_data f)).
Proof.
  intros w [e mime name desc data] (M & TN & TD). cbn [ge_enc ge_mime ge_name ge_desc ge_data] in *. unfold geob_bytes. cbn [ge_enc ge_mime ge_name ge_desc ge_data]. replace (w_enc w e) with (stored (w_v23 w) e) by (unfold w_enc, stored; destruct (w_v23 w), e; reflexivity). set (e' := stored (w_v23 w) e) in *.
  destruct (written_text w e' _ TN) as (n & -> & PN & RN). destruct (written_text w e' _ TD) as (d & -> & PD & RD). cbn [bind]. eexists. split; [reflexivity|]. rewrite ascii_utf8 by auto. unfold geob_parse.
  replace (lenN _ <? 4) with false by (rewrite lenN_cons, lenN_app, lenN_cons, !lenN_app; lia). cbn [read_u8 from_opt bind]. replace (enc_of_u8 (enc_to_u8 e')) with (Some e') by now destruct e'. cbn [from_opt bind].
  destruct (ascii_latin1 _ (n ++ d ++ data) M) as (n1 & b1 & ->). cbn [bind]. destruct (RN (d ++ data)) as (n2 & b2 & ->). cbn [bind]. destruct (RD data) as (n3 & b3 & ->). reflexivity.
Qed.
(** The MIME type is written as UTF-8 and read as ISO-8859-1. *)
Theorem C220_mime_refuted : exists w f b, geob_bytes w f = Ok b /\ geob_parse b = Ok (mkGeob Latin1 (Some [0xC3; 0xA9]) None None []) /\ ge_mime f = Some [0xE9].
Proof. exists (mkW false true false None), (mkGeob Latin1 (Some [0xE9]) None None []). eexists. repeat split; vm_compute; reflexivity. Qed.
(** A text of UTF-16 without mark and terminator is an error, and so is anything else that does not decode; never a panic. *)
Theorem C220_total : forall data, geob_parse data <> Panic.
Proof.
  intros data. unfold geob_parse. destruct (_ <? _); [discriminate|].
  repeat match goal with
  | |- bind (from_opt ?o _) _ <> _ => destruct o as [?|]; cbn [from_opt bind]; [|discriminate]
  | |- match ?p with (_, _) => _ end <> _ => destruct p
  | |- bind (dec_term ?e ?r) _ <> _ => unfold dec_term at 1; pose proof (decode_text_total e true (0, 0) r); destruct (decode_text e true (0, 0) r) as [[? ?]| |]; cbn [as_ferr bind]; [|discriminate|contradiction]
  end. discriminate.
Qed.
Example C220_example : geob_parse ([0] ++ $"a/b" ++ [0] ++ $"n" ++ [0; 0; 7; 8]) = Ok (mkGeob Latin1 (Some ($"a/b")) (Some ($"n")) None [7; 8]).
Proof. vm_compute. reflexivity. Qed.

(** ** C221: ATXT frames *)
Theorem C221_roundtrip : forall w f, terminated_ok Latin1 (ax_mime f) -> terminated_ok (stored (w_v23 w) (ax_enc f)) (ax_text f) ->
  exists b, atxt_bytes w f = Ok b /\ atxt_parse b = Ok (mkAtxt (stored (w_v23 w) (ax_enc f)) (ax_mime f) (ax_scrambled f) (ax_text f) (ax_data f)).
Proof.
  intros w [e mime sc text data] TM TT. cbn [ax_enc ax_mime ax_scrambled ax_text ax_data] in *. unfold atxt_bytes. cbn [ax_enc ax_mime ax_scrambled ax_text ax_data]. replace (w_enc w e) with (stored (w_v23 w) e) by (unfold w_enc, stored; destruct (w_v23 w), e; reflexivity). set (e' := stored (w_v23 w) e) in *.
  destruct (written_text w Latin1 _ TM) as (m & -> & PM & RM). destruct (written_text w e' _ TT) as (d & -> & PD & RD). cbn [bind]. eexists. split; [reflexivity|]. unfold atxt_parse.
  replace (lenN _ <? 4) with false by (rewrite lenN_cons, lenN_app, lenN_cons, !lenN_app; lia). cbn [read_u8 from_opt bind]. replace (enc_of_u8 (enc_to_u8 e')) with (Some e') by now destruct e'. cbn [from_opt bind].
  destruct (RM ((if sc then 1 else 0) :: d ++ data)) as (n1 & b1 & ->). cbn [bind read_u8 from_opt]. destruct (RD data) as (n2 & b2 & ->). cbn [bind d_content]. now destruct sc.
Qed.
Theorem C221_total : forall data, atxt_parse data <> Panic.
Proof.
  intros data. unfold atxt_parse. destruct (_ <? _); [discriminate|].
  repeat match goal with
  | |- bind (from_opt ?o _) _ <> _ => destruct o as [?|]; cbn [from_opt bind]; [|discriminate]
  | |- match ?p with (_, _) => _ end <> _ => destruct p
  | |- bind (dec_term ?e ?r) _ <> _ => unfold dec_term at 1; pose proof (decode_text_total e true (0, 0) r); destruct (decode_text e true (0, 0) r) as [[? ?]| |]; cbn [as_ferr bind]; [|discriminate|contradiction]
  end. discriminate.
Qed.
(** Frames with the same text are equal whatever their clips. *)
Theorem C221_eq_refuted : exists a b, atxt_eqb a b = true /\ ax_data a <> ax_data b.
Proof. exists (mkAtxt Latin1 [] false ($"x") [1]), (mkAtxt Latin1 [] false ($"x") [2]). split; [reflexivity|discriminate]. Qed.
Example C221_example : atxt_parse ([0] ++ $"a/b" ++ [0; 3] ++ $"t" ++ [0; 9]) = Ok (mkAtxt Latin1 ($"a/b") true ($"t") [9]) /\ atxt_parse ([0] ++ $"a/b") = Err EEof.
Proof. split; vm_compute; reflexivity. Qed.

(** ** C222: scrambling *)
(** The bits of the table, the highest of each byte first, are the sequence of the shift register x^7 + x^6 + 1 that starts with seven ones; it repeats after 127 bytes. *)
Definition table_bit (n : N) : bool := N.testbit (nth (N.to_nat ((n / 8) mod 127)) SCRAMBLING_TABLE 0) (7 - n mod 8).
Theorem C222_table : length SCRAMBLING_TABLE = 127%nat /\ (forall n, n < 7 -> table_bit n = true) /\ (forall n, table_bit (n + 7) = xorb (table_bit n) (table_bit (n + 1))) /\ NoDup SCRAMBLING_TABLE /\ bytes_ok SCRAMBLING_TABLE.
Proof.
  assert (P : forall n, table_bit n = table_bit (n mod 1016)).
  { intros n. unfold table_bit. assert (E1 : (n / 8) mod 127 = ((n mod 1016) / 8) mod 127). { pose proof (N.div_mod n 1016 ltac:(lia)) as E. rewrite E at 1. replace (1016 * (n / 1016) + n mod 1016) with (n mod 1016 + (127 * (n / 1016)) * 8) by lia. rewrite N.div_add by lia. rewrite (N.mul_comm 127). apply N.mod_add. lia. }
    assert (E2 : n mod 8 = (n mod 1016) mod 8). { pose proof (N.div_mod n 1016 ltac:(lia)) as E. rewrite E at 1. replace (1016 * (n / 1016) + n mod 1016) with (n mod 1016 + (127 * (n / 1016)) * 8) by lia. apply N.mod_add. lia. }
    now rewrite E1, E2. }
  split; [reflexivity|]. split.
  { intros n L. assert (B : forallb table_bit (map N.of_nat (seq 0 7)) = true) by reflexivity. rewrite forallb_forall in B. apply B. apply in_map_iff. exists (N.to_nat n). split; [lia|]. apply in_seq. lia. }
  split.
  { assert (B : forallb (fun n => Bool.eqb (table_bit (n + 7)) (xorb (table_bit n) (table_bit (n + 1)))) (map N.of_nat (seq 0 1016)) = true) by (vm_compute; reflexivity). rewrite forallb_forall in B. intros n. rewrite (P (n + 7)), (P (n + 1)), (P n).
    rewrite (N.add_mod n 7 1016), (N.add_mod n 1 1016) by lia. assert (I : In (n mod 1016) (map N.of_nat (seq 0 1016))). { apply in_map_iff. exists (N.to_nat (n mod 1016)). split; [lia|]. apply in_seq. pose proof (N.mod_lt n 1016 ltac:(lia)). lia. }
    specialize (B _ I). apply Bool.eqb_prop in B. rewrite (P (n mod 1016 + 7)), (P (n mod 1016 + 1)) in B. exact B. }
  split.
  - assert (B : (fix nd (l : bytes) := match l with [] => true | x :: l => negb (existsb (N.eqb x) l) && nd l end) SCRAMBLING_TABLE = true) by (vm_compute; reflexivity). revert B. generalize SCRAMBLING_TABLE as b. induction b as [|x l IH]; intros B; constructor.
    + apply andb_true_iff in B as [B _]. apply negb_true_iff in B. intros I. assert (existsb (N.eqb x) l = true) by (apply existsb_exists; exists x; split; auto; apply N.eqb_refl). congruence.
    + apply IH. now apply andb_true_iff in B.
  - apply Forall_forall. assert (B : forallb (fun x => x <? 256) SCRAMBLING_TABLE = true) by (vm_compute; reflexivity). rewrite forallb_forall in B. intros x I. apply B in I. unfold byte_ok. lia.
Qed.
Lemma from_spec : forall data idx, idx < 127 -> exists out, scramble_from idx data = Ok out /\ forall n, nth_error out n = match nth_error data n with Some b => Some (N.lxor b (nth ((N.to_nat idx + n) mod 127) SCRAMBLING_TABLE 0)) | None => None end.
Proof.
  induction data as [|b data IH]; intros idx L; [exists []; split; [reflexivity|]; intros [|n]; reflexivity|]. cbn [scramble_from].
  assert (LT : (N.to_nat idx < length SCRAMBLING_TABLE)%nat) by (change (length SCRAMBLING_TABLE) with 127%nat; lia). destruct (nth_error SCRAMBLING_TABLE (N.to_nat idx)) as [k|] eqn:K; [|apply nth_error_None in K; lia]. apply nth_error_nth with (d := 0) in K.
  destruct (IH (if idx =? 126 then 0 else idx + 1)) as (out & -> & S'); [destruct (N.eqb_spec idx 126); lia|]. cbn [bind]. eexists. split; [reflexivity|]. intros [|n]; cbn [nth_error].
  - rewrite Nat.add_0_r, Nat.mod_small by lia. now rewrite K.
  - rewrite S'. destruct (nth_error data n); [|reflexivity].
    assert (M : ((N.to_nat (if idx =? 126 then 0 else idx + 1)%N + n) mod 127 = (N.to_nat idx + S n) mod 127)%nat).
    { destruct (N.eqb_spec idx 126) as [->|NE]; [|f_equal; lia]. replace (N.to_nat 126 + S n)%nat with (N.to_nat 0 + n + 1 * 127)%nat by lia. symmetry. apply Nat.mod_add. lia. }
    rewrite M. reflexivity.
Qed.
Lemma from_length : forall data idx out, scramble_from idx data = Ok out -> length out = length data.
Proof.
  induction data as [|b data IH]; cbn; intros idx out E; [injection E as <-; reflexivity|]. destruct (nth_error _ _); [|discriminate]. destruct (scramble_from _ data) eqn:F; cbn [bind] in E; try discriminate. injection E as <-. cbn. f_equal. eauto.
Qed.
(** Each byte is combined with that of the table at its place; doing it twice gives the clip back. *)
Theorem C222_scramble : forall data, exists out, scramble data = Ok out /\ length out = length data /\ scramble out = Ok data /\ (bytes_ok data -> bytes_ok out) /\
  forall n b, nth_error data n = Some b -> nth_error out n = Some (N.lxor b (nth (n mod 127) SCRAMBLING_TABLE 0)).
Proof.
  intros data. destruct (from_spec data 0 ltac:(lia)) as (out & E & S1). exists out. split; [exact E|]. split; [eapply from_length; eauto|]. split; [|split].
  - destruct (from_spec out 0 ltac:(lia)) as (out2 & E2 & S2). unfold scramble. rewrite E2. f_equal. apply nth_ext with (d := 0) (d' := 0); [apply from_length in E, E2; congruence|]. intros n L. specialize (S2 n). rewrite S1 in S2.
    destruct (nth_error data n) as [b|] eqn:D; [|apply nth_error_None in D; apply from_length in E, E2; lia]. rewrite N.lxor_assoc, N.lxor_nilpotent, N.lxor_0_r in S2. apply nth_error_nth with (d := 0) in D, S2. congruence.
  - intros BO. apply Forall_forall. intros x I. apply In_nth_error in I as (n & NE). rewrite S1 in NE. destruct (nth_error data n) as [b|] eqn:D; [|discriminate]. apply (f_equal (fun o => match o with Some y => y | None => 0 end)) in NE. cbv beta iota in NE. rewrite <- NE. clear NE. apply nth_error_In in D. rewrite Forall_forall in BO. apply BO in D. destruct C222_table as (LT & _ & _ & _ & TB).
    assert (K : byte_ok (nth ((N.to_nat 0 + n) mod 127) SCRAMBLING_TABLE 0)). { rewrite Forall_forall in TB. apply TB. apply nth_In. rewrite LT. apply Nat.mod_upper_bound. lia. }
    generalize dependent (nth ((N.to_nat 0 + n) mod 127) SCRAMBLING_TABLE 0). intros k K. unfold byte_ok in *. destruct (N.eq_dec (N.lxor b k) 0) as [->|NZ]; [lia|]. apply (N.log2_lt_pow2 _ 8); [lia|]. eapply N.le_lt_trans; [apply N.log2_lxor|]. apply N.max_lub_lt.
    + destruct (N.eq_dec b 0) as [->|]; [cbn; lia|]. apply N.log2_lt_pow2; lia.
    + destruct (N.eq_dec k 0) as [->|]; [cbn; lia|]. apply N.log2_lt_pow2; lia.
  - intros n b D. rewrite S1, D. reflexivity.
Qed.
Example C222_example : scramble [0; 0; 255; 1] = Ok [0xFE; 0x04; 0xE7; 0x50].
Proof. vm_compute. reflexivity. Qed.

Print Assumptions C218_layout.
Print Assumptions C218_accepted.
Print Assumptions C218_total.
Print Assumptions C219_roundtrip.
Print Assumptions C219_v23_utf8_refuted.
Print Assumptions C219_v23_utf16be_refuted.
Print Assumptions C220_roundtrip.
Print Assumptions C220_mime_refuted.
Print Assumptions C220_total.
Print Assumptions C221_roundtrip.
Print Assumptions C221_total.
Print Assumptions C221_eq_refuted.
Print Assumptions C222_table.
Print Assumptions C222_scramble.
