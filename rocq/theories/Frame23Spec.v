(** Specification of frames in ID3v2.3, where some frames of ID3v2.4 have another form: what is read back for each of them. *)
From Verif Require Export FrameSpec FrameWriteModel.
From Verif Require Import Id3v1Model.

(** ID3v2.3 has the year, the day with the month, and the hour with the minute. *)
Definition kept_date (t : timestamp) : timestamp :=
  mkTs (ts_year t) (match ts_day t with Some _ => ts_month t | None => None end) (ts_day t)
       (match ts_minute t with Some _ => ts_hour t | None => None end) (ts_minute t) None.
Definition only_year (t : timestamp) : timestamp := mkTs (ts_year t) None None None None None.
Definition NEW_IN_V24 : list str :=
  [$"ASPI"; $"EQU2"; $"RVA2"; $"SEEK"; $"SIGN"; $"TDEN"; $"TDRL"; $"TDTG"; $"TMOO"; $"TPRO"; $"TSOA"; $"TSOP"; $"TSOT"; $"TSST"].

(** [old_form m f l]: the frame [f] comes back as [l]. Lists of people come back together (see [people]). *)
Inductive old_form (m : pmode) : frame -> list frame -> Prop :=
| old_same : forall f, frame_ok true m f -> f_id f <> Valid ($"TDAT") -> f_id f <> Valid ($"TIME") -> old_form m f [restored true f]
| old_dropped : forall f s, f_id f = Valid s -> In s NEW_IN_V24 -> old_form m f []
| old_date : forall fl e t, flags_ok fl -> ts_verify t = Ok tt -> 1000 <= ts_year t ->
    old_form m (FTime (mkFH (Valid ($"TDRC")) fl) e t) [FTime (mkFH (Valid ($"TDRC")) ff_default) (stored true e) (kept_date t)]
| old_original : forall fl e t, flags_ok fl -> ts_verify t = Ok tt ->
    old_form m (FTime (mkFH (Valid ($"TDOR")) fl) e t) [FTime (mkFH (Valid ($"TDOR")) fl) (stored true e) (only_year t)]
| old_genre : forall fl e v, flags_ok fl -> text_ok (stored true e) (join_genres (genres true v)) ->
    old_form m (FText (mkFH (Valid ($"TCON")) fl) e v) [FText (mkFH (Valid ($"TCON")) fl) (stored true e) (join_genres (genres true v))]
| old_people : forall n fl e l, In n [$"TIPL"; $"TMCL"] -> old_form m (FKeyValue (mkFH (Valid n) fl) e l) [].

(** All people of both lists, in order, and the encoding of the first list. *)
Definition people_of (f : frame) : option (encoding * list (str * str)) :=
  match f with
  | FKeyValue h e l => if id_eqb (fh_id h) (Valid ($"TIPL")) || id_eqb (fh_id h) (Valid ($"TMCL")) then Some (e, l) else None
  | _ => None
  end.
Fixpoint people (l : list frame) : option (encoding * list (str * str)) :=
  match l with
  | [] => None
  | f :: l' =>
      match people_of f, people l' with
      | Some (e, ps), Some (_, qs) => Some (e, ps ++ qs)
      | Some p, None => Some p
      | None, o => o
      end
  end.
(** They can be stored, and the last one is not empty. *)
Definition people_ok (p : option (encoding * list (str * str))) : Prop :=
  match p with
  | None => True
  | Some (e, l) => l <> [] /\ snd (last l ([], [])) <> [] /\
      Forall (fun p => terminated_ok (stored true e) (fst p) /\ terminated_ok (stored true e) (snd p)) l
  end.
Definition people_frame (p : option (encoding * list (str * str))) : list frame :=
  match p with Some (e, l) => [FKeyValue (mkFH (Valid ($"TIPL")) ff_default) (stored true e) l] | None => [] end.

(** Genres: names, or numbers of names, separated by NUL in ID3v2.4. *)
Definition clean (g : str) : Prop := Forall (fun c => c <> 0 /\ c <> 40 /\ c <> 41) g.
Fixpoint nul_list (gs : list str) : str :=
  match gs with [] => [] | [g] => g | g :: gs' => g ++ 0 :: nul_list gs' end.
Inductive genre_entry : str -> str -> Prop :=
| ge_number : forall n s, nth_error GENRES (N.to_nat n) = Some s -> genre_entry (to_dec n) s
| ge_unknown : forall n, 192 <= n -> genre_entry (to_dec n) (to_dec n)
| ge_remix : genre_entry ($"RX") ($"Remix")
| ge_cover : genre_entry ($"CR") ($"Cover")
| ge_text : forall g, match g with c :: _ => is_digit c = false /\ c <> 43 | [] => True end -> g <> $"RX" -> g <> $"CR" -> genre_entry g g.
