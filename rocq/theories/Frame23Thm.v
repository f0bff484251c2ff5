(** ID3v2.3: the frames that ID3v2.4 has in another form. *)
From Verif Require Import BaseLemmas StrLemmas SynchProof TextProof TimestampSpec TimestampProof Id3v1Model FrameProof1 FrameProof2.
From Verif Require Import Frame23Spec Frame23Proof.
From Verif Require Import FrameThm.
From Coq Require Import Permutation.

(** ** C140: the whole tag. Every frame comes back in the form of [old_form] and all people in one list; only the place of a recording
    date (and of the frames after it) may change. *)
Theorem C140_old_forms : forall w inflate o f l outs tag rest,
  w_v23 w = true -> fo_cover o = true -> fo_implicit o = true -> tag_flags_ok true f -> l <> [] ->
  Forall2 (old_form (fo_mode o)) l outs -> people_ok (people l) -> lenN (filter is_root l) <= 1 ->
  lenN (filter (fun f => id_eqb (f_id f) (Valid ($"TDRC"))) l) <= 1 ->
  NoDup (map identity_of (concat outs ++ people_frame (people l))) ->
  create_tag w f l = Ok tag -> lenN tag < 2 ^ 32 ->
  exists h body frames, header_parse (tag ++ rest) = (Ok h, body) /\ 10 + h_size h + (if tf_footer f then 10 else 0) = lenN tag /\
    parse_id3v2 inflate h o body = Ok (mkT V3 f frames, footer w f tag ++ rest) /\
    Permutation frames (concat outs ++ people_frame (people l)).
Proof.
  intros w inflate o f l outs tag rest V Hc Hi Hf NE F P R D ND E Hl.
  destruct (old_frames w inflate o l outs) as (raw & RD & PE); auto.
  rewrite <- V in Hf. destruct (tag_gen w inflate o f l tag rest raw) as (h & body & A & B & C); auto.
  - intros. replace (wv w) with V3 by (unfold wv; now rewrite V). auto.
  - exists h, body, (construct_tdrc raw). split; auto. split; auto. split; auto. rewrite C. unfold wv. rewrite V, Hi. reflexivity.
Qed.
Print Assumptions C140_old_forms.

Definition ex_date := FTime (head ($"TDRC")) UTF8 (mkTs 2024 (Some 2) (Some 29) (Some 23) (Some 59) (Some 30)).
Definition ex_old := FTime (head ($"TDOR")) Latin1 (mkTs 1999 (Some 5) None None None None).
Definition ex_genres := FText (head ($"TCON")) Latin1 ($"17" ++ 0 :: $"RX" ++ 0 :: $"Foo").
Definition ex_involved := FKeyValue (head ($"TIPL")) UTF8 [($"producer", $"A"); ($"mixer", [])].
Definition ex_musicians := FKeyValue (head ($"TMCL")) Latin1 [($"guitar", $"B")].
Definition ex_mood := FText (head ($"TMOO")) Latin1 ($"sad").
Definition ex_list := [ex_date; ex_title; ex_involved; ex_old; ex_mood; ex_genres; ex_musicians].
Definition ex_outs := [[FTime (head ($"TDRC")) UTF16 (mkTs 2024 (Some 2) (Some 29) (Some 23) (Some 59) None)]; [restored true ex_title]; [];
  [FTime (head ($"TDOR")) Latin1 (mkTs 1999 None None None None None)]; []; [FText (head ($"TCON")) Latin1 ($"(17)(RX)Foo")]; []].
Example C140_old_ex :
  reread w23 no_flags ex_opts ex_list = Some
    [restored true ex_title; FTime (head ($"TDOR")) Latin1 (mkTs 1999 None None None None None); FText (head ($"TCON")) Latin1 ($"(17)(RX)Foo");
     FKeyValue (head ($"TIPL")) UTF16 [($"producer", $"A"); ($"mixer", []); ($"guitar", $"B")];
     FTime (head ($"TDRC")) UTF16 (mkTs 2024 (Some 2) (Some 29) (Some 23) (Some 59) None)] /\
  Forall2 (old_form Strict) ex_list ex_outs /\ people_ok (people ex_list).
Proof.
  split; [vm_compute; reflexivity|].
  assert (D0 : flags_ok ff_default) by (repeat split).
  split.
  - constructor. { apply (old_date Strict ff_default UTF8); auto. discriminate. }
    constructor. { apply old_same. 2, 3: discriminate. apply ok_frame; [|split; [apply (all_b (fun c => c <? 10000)); [intros x Hx; apply scalar_bound; lia|reflexivity]|split; [discriminate|apply (all_b (fun c => c <? 10000)); [cbv beta; intros; lia|reflexivity]]]|constructor|split; [constructor|cbv; discriminate]].
      split. exists ($"TIT2"). split; auto. split. now apply valid_b. split; auto. intros _. unfold RENAMED. cbn [In]. intro X. repeat destruct X as [X|X]; try discriminate X; contradiction.
      split; [auto|split; discriminate]. }
    constructor. { apply old_people. cbn; auto. }
    constructor. { apply (old_original Strict ff_default Latin1); auto. }
    constructor. { apply old_dropped with (s := $"TMOO"); auto. unfold NEW_IN_V24. cbn [In]. tauto. }
    constructor. { change [FText (head ($"TCON")) Latin1 ($"(17)(RX)Foo")] with [FText (mkFH (Valid ($"TCON")) ff_default) (stored true Latin1) (join_genres (genres true ($"17" ++ 0 :: $"RX" ++ 0 :: $"Foo")))].
      apply old_genre; auto. now apply plain_text. }
    constructor. { apply old_people. cbn; auto. }
    constructor.
  - change (people ex_list) with (Some (UTF8, [($"producer", $"A"); ($"mixer", []); ($"guitar", $"B")])).
    split; [discriminate|]. split; [discriminate|].
    assert (T : forall s, forallb (fun c => (0 <? c) && (c <? 256)) s = true -> terminated_ok UTF16 s).
    { intros s H. assert (F : Forall (fun c => 0 < c < 256) s) by (eapply all_b; [|exact H]; cbv beta; intros; lia).
      split. eapply Forall_impl; [|exact F]. cbv beta. intros x Hx. apply scalar_bound. lia. split; eapply Forall_impl; [|exact F| |exact F]; cbv beta; intros; lia. }
    repeat (constructor; [split; apply T; reflexivity|]). constructor.
Qed.

(** Genres: what is read from the ID3v2.3 form is what is read from the ID3v2.4 form, names instead of numbers. *)
Theorem C140_genres : forall gs names, Forall clean gs -> gs <> [] -> last gs [] <> [] -> Forall2 genre_entry gs names ->
  genres false (nul_list gs) = names /\ genres false (join_genres (genres true (nul_list gs))) = names.
Proof.
  intros gs names F NE La G. assert (map (parse_genre false) gs = names) as <-.
  { clear - G. induction G; cbn [map]; auto. f_equal; auto. now apply entry_read. }
  split. now apply genres_nul. now apply genres_join.
Qed.
Print Assumptions C140_genres.
Example C140_genres_ex :
  Forall2 genre_entry [$"17"; $"RX"; $"300"; $"17"] [$"Rock"; $"Remix"; $"300"; $"Rock"] /\
  join_genres (genres true (nul_list [$"17"; $"RX"; $"300"; $"17"])) = $"(17)(RX)(300)(17)" /\
  genres false ($"(17)(RX)(300)(17)") = [$"Rock"; $"Remix"; $"300"; $"Rock"].
Proof.
  split; [|split; vm_compute; reflexivity]. constructor. now apply (ge_number 17). constructor. apply ge_remix. constructor. apply (ge_unknown 300). discriminate.
  constructor. now apply (ge_number 17). constructor.
Qed.

(** ** C141: what is lost. *)
(** A genre that ends in a parenthesis breaks the list. *)
Theorem C141_parenthesis_refuted : ~ forall gs, Forall (fun g => g <> []) gs -> Forall (Forall (fun c => c <> 0)) gs ->
  genres false (join_genres (genres true (nul_list gs))) = genres false (nul_list gs).
Proof.
  intro H. assert (X : genres false (join_genres (genres true (nul_list [$"Rock"; $"(Pop)"; $"17"]))) = genres false (nul_list [$"Rock"; $"(Pop)"; $"17"])).
  2: { vm_compute in X. discriminate X. }
  apply H.
  - repeat (constructor; [discriminate|]); constructor.
  - repeat (constructor; [repeat (constructor; [discriminate|]); constructor|]); constructor.
Qed.
Print Assumptions C141_parenthesis_refuted.
(** A year below 1000 is written without the zeros it is read with: the file cannot be read strictly, and loses its date otherwise. *)
Theorem C141_early_year_refuted : ~ forall w o t l, w_v23 w = true -> ts_verify t = Ok tt ->
  reread w no_flags o [FTime (head ($"TDRC")) Latin1 t] = Some l -> In (FTime (head ($"TDRC")) Latin1 (kept_date t)) l.
Proof.
  intro H. specialize (H w23 (mkFO BestAttempt true true) (mkTs 476 None None None None None) [] eq_refl eq_refl). apply H. vm_compute. reflexivity.
Qed.
Print Assumptions C141_early_year_refuted.
Example C141_early_ex :
  reread w23 no_flags ex_opts [FTime (head ($"TDRC")) Latin1 (mkTs 476 None None None None None)] = None /\
  match create_tag w23 no_flags [FTime (head ($"TDRC")) Latin1 (mkTs 476 None None None None None)] with Ok _ => True | _ => False end /\
  reread w23 no_flags ex_opts [FTime (head ($"TDRC")) Latin1 (mkTs 1476 None None None None None)] = Some [FTime (head ($"TDRC")) Latin1 (mkTs 1476 None None None None None)].
Proof. split; [vm_compute; reflexivity|]. split; [vm_compute; exact I|vm_compute; reflexivity]. Qed.
(** A full date in an ID3v2.3 tag is removed while reading, whatever else is in the tag. *)
Theorem C141_date_removed : forall h e t l, hd_error (filter (fun f => id_eqb (f_id f) (Valid ($"TDRC"))) l) = Some (FTime h e t) -> ts_month t <> None ->
  Permutation (construct_tdrc l) (filter (fun f => negb (id_eqb (f_id f) (Valid ($"TDRC")))) l).
Proof.
  intros h e t l H M. unfold construct_tdrc. unfold fl_removed. fold TDRC in H. rewrite H. destruct (ts_month t); [|congruence]. apply remove_perm.
Qed.
Print Assumptions C141_date_removed.
(** A tag of another program (24 bytes of frame) and what is read. *)
Definition foreign_tdrc : bytes := $"ID3" ++ [3; 0; 0; 0; 0; 0; 21] ++ $"TDRC" ++ [0; 0; 0; 11; 0; 0; 0] ++ $"2024-02-29".
Example C141_removed_ex : match header_parse foreign_tdrc with
  | (Ok h, r) => parse_id3v2 (fun _ => None) h ex_opts r = Ok (mkT V3 no_flags [], []) | _ => False end.
Proof. vm_compute. reflexivity. Qed.
(** The last pair of people is dropped when its value is empty; all pairs become "involved people". *)
Theorem C141_people_refuted : ~ forall l fs, l <> [] ->
  reread w23 no_flags ex_opts [FKeyValue (head ($"TMCL")) Latin1 l] = Some fs -> exists n e, In (FKeyValue (head n) e l) fs.
Proof.
  intro H. destruct (H [($"a", $"b"); ($"c", [])] [FKeyValue (head ($"TIPL")) Latin1 [($"a", $"b")]]) as (n & e & I).
  discriminate. vm_compute. reflexivity. destruct I as [I|[]]. discriminate I.
Qed.
Print Assumptions C141_people_refuted.
Theorem C141_musicians_refuted : ~ forall l fs, l <> [] ->
  reread w23 no_flags ex_opts [FKeyValue (head ($"TMCL")) Latin1 l] = Some fs -> exists e m, In (FKeyValue (head ($"TMCL")) e m) fs.
Proof.
  intro H. destruct (H [($"a", $"b")] [FKeyValue (head ($"TIPL")) Latin1 [($"a", $"b")]]) as (e & m & I).
  discriminate. vm_compute. reflexivity. destruct I as [I|[]]. discriminate I.
Qed.
Print Assumptions C141_musicians_refuted.
