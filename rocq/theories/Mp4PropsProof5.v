From Verif Require Import Base BaseLemmas Str StrLemmas Mode PictureModel FileModel MathModel MathThm FlacModel FlacThm MpegProof.
From Verif Require Import Mp4Model Mp4WriteModel Mp4Spec Mp4Proof Mp4Proof3 Mp4Proof4 Mp4Proof5 Mp4Proof6 Mp4Proof7 Mp4Proof8 Mp4PropsModel Mp4PropsSpec Mp4PropsProof Mp4PropsProof2 Mp4PropsProof3 Mp4PropsProof4.

(** ** The entries do not change the duration *)
Ltac parts H :=
  repeat (cbn [bind] in H; match type of H with
  | (let? _ := ?x in _) = Ok _ => destruct x eqn:?; cbn [bind] in H; try discriminate
  | (if ?x then _ else _) = Ok _ => destruct x eqn:?; try discriminate
  | (match ?x with _ => _ end) = Ok _ => destruct x eqn:?; try discriminate
  | _ => progress cbv zeta in H
  end).
Lemma config_duration : forall data r p p', specific_config data r p = Ok p' -> q_duration p' = q_duration p.
Proof.
  intros data r p p' H. unfold specific_config in H.
  destruct (rd_be_own data 1 r) as [[a r1]|e|]; cbn [bind] in H; try discriminate. destruct (rd_be_own data 1 r1) as [[b r2]|e|]; cbn [bind] in H; try discriminate. cbv zeta in H.
  destruct (negb _) in H; [discriminate|].
  match type of H with bind ?x _ = _ => destruct x as [[[p1 conf] r3]|e|] eqn:E end; cbn [bind] in H; try discriminate.
  assert (D1 : q_duration p1 = q_duration p).
  { destruct (_ =? 15) in E; parts E; injection E as <- <- <-; repeat destruct (0 <? _); reflexivity. }
  assert (D2 : q_duration (if 0 <? conf then set_channels (Some conf) p1 else p1) = q_duration p) by (destruct (0 <? conf); exact D1).
  parts H; injection H as <-; exact D2.
Qed.
Lemma mp4a_duration : forall data m r p p', mp4a_properties data m r p = Ok p' -> q_duration p' = q_duration p.
Proof.
  intros data m r p p' H. unfold mp4a_properties in H. cbv zeta in H.
  destruct (next data m r) as [[[a|] r1]|e|]; try (injection H as <-; reflexivity); try discriminate.
  destruct (negb _) in H; [injection H as <-; reflexivity|].
  destruct (rd_be_own data 4 r1) as [[v r2]|e|]; cbn [bind] in H; try discriminate. destruct (negb _) in H; [injection H as <-; reflexivity|].
  destruct (descriptor data r2) as [[t1 r3]|e|]; cbn [bind] in H; try discriminate. destruct (negb _) in H; [injection H as <-; reflexivity|].
  destruct (seek_cur 3 r3) as [r4|e|]; cbn [bind] in H; try discriminate.
  destruct (descriptor data r4) as [[t2 r5]|e|]; cbn [bind] in H; try discriminate. destruct (negb _) in H; [injection H as <-; reflexivity|].
  destruct (rd_be_own data 1 r5) as [[c r6]|e|]; cbn [bind] in H; try discriminate. destruct (seek_cur 8 r6) as [r7|e|]; cbn [bind] in H; try discriminate.
  destruct (rd_be_own data 4 r7) as [[avg r8]|e|]; cbn [bind] in H; try discriminate. destruct (descriptor data r8) as [[t3 r9]|e|]; cbn [bind] in H; try discriminate.
  match type of H with bind ?x _ = _ => destruct x as [p1|e|] eqn:E end; cbn [bind] in H; try discriminate.
  assert (D : q_duration p1 = q_duration p). { destruct (t3 =? 5); [apply config_duration in E; exact E|injection E as <-; reflexivity]. }
  injection H as <-. destruct (_ || _); [exact D|exact D].
Qed.
Lemma alac_duration : forall data m r p p', alac_properties data m r p = Ok p' -> q_duration p' = q_duration p.
Proof. intros data m r p p' H. unfold alac_properties in H. cbv zeta in H. parts H; injection H as <-; reflexivity. Qed.
Lemma flac_duration : forall data m r p p', flac_properties data m r p = Ok p' -> q_duration p' = q_duration p.
Proof. intros data m r p p' H. unfold flac_properties in H. cbv zeta in H. parts H; injection H as <-; reflexivity. Qed.
Lemma loop_duration : forall data m fuel count r p p', stsd_loop fuel data m count r p = Ok p' -> q_duration p' = q_duration p.
Proof.
  intros data m. induction fuel as [|fuel IH]; intros count r p p' H; cbn [stsd_loop] in H; (destruct (count =? 0); [injection H as <-; reflexivity|]); [discriminate|]. cbv zeta in H.
  destruct (next data m r) as [[[a|] r1]|e|]; cbn [bind] in H; try discriminate. destruct (a_ext a); [discriminate|]. destruct (a_ident a) as [f|? ?]; [|discriminate].
  destruct (seek_cur 8 r1) as [r2|e|]; cbn [bind] in H; try discriminate. destruct (rd_be_own data 2 r2) as [[v r3]|e|]; cbn [bind] in H; try discriminate.
  destruct (2 <? v); [discriminate|]. destruct (seek_cur 6 r3) as [r4|e|]; cbn [bind] in H; try discriminate. destruct (rd_be_own data 2 r4) as [[ch r5]|e|]; cbn [bind] in H; try discriminate.
  destruct (seek_cur 6 r5) as [r6|e|]; cbn [bind] in H; try discriminate. destruct (rd_be_own data 4 r6) as [[rate r7]|e|]; cbn [bind] in H; try discriminate.
  match type of H with bind ?x _ = _ => destruct x as [r8|e|] end; cbn [bind] in H; try discriminate.
  destruct (list_eqb f ($"mp4a")); [now apply mp4a_duration in H|]. destruct (list_eqb f ($"alac")); [now apply alac_duration in H|]. destruct (list_eqb f ($"fLaC")); [now apply flac_duration in H|].
  destruct (skip_atom _ _ _) as [r9|e|]; cbn [bind] in H; try discriminate. apply IH in H. rewrite H. now destruct (list_eqb f ($"drms")).
Qed.
Lemma stsd_duration : forall data m p p', read_stsd data m p = Ok p' -> q_duration p' = q_duration p.
Proof.
  intros data m p p' H. unfold read_stsd in H. destruct (seek_cur 4 _) as [r|e|]; cbn [bind] in H; try discriminate. destruct (rd_be_own data 4 r) as [[c r1]|e|]; cbn [bind] in H; try discriminate.
  now apply loop_duration in H.
Qed.
(** ** Bit rates change nothing else *)
Definition same_sound (p q : mp4_props) : Prop :=
  q_codec p = q_codec q /\ q_type p = q_type q /\ q_duration p = q_duration q /\ q_rate p = q_rate q /\ q_depth p = q_depth q /\ q_channels p = q_channels q /\ q_drm p = q_drm q.
Lemma same_refl : forall p, same_sound p p. Proof. intros. repeat split. Qed.
Lemma bit_rates_total : forall len n scale dur stts p, len < 2 ^ 61 -> n <= len -> exists p', bit_rates len n scale dur stts p = Ok p' /\ same_sound p' p.
Proof.
  intros len n scale dur stts p HL HN. unfold bit_rates, U64_MAX.
  set (p1 := match stts with Some [1] | None => p | Some _ => _ end). assert (S1 : same_sound p1 p) by (unfold p1; destruct stts as [[|[|[|?|]] [|? ?]]|]; repeat split).
  destruct (q_duration p1 =? 0); [eauto|]. replace (18446744073709551615 <? len * 8) with false by lia. replace (18446744073709551615 <? n * 8) with false by lia.
  destruct (q_audio _) as [[|?]|]; eexists; split; try reflexivity; exact S1.
Qed.
Lemma mdat_le : forall l n, mdat_size l = Some n -> n <= lenN (encs l).
Proof.
  induction l as [|b l IH]; intros n H; [discriminate|]. rewrite encs_cons, lenN_app. cbn [mdat_size] in H. destruct b as [s id c|s id ks]; [destruct (list_eqb id ($"mdat"))|].
  - injection H as <-. cbn [enc]. rewrite !lenN_app. lia.
  - apply IH in H. lia.
  - apply IH in H. lia.
Qed.
Lemma strict_dec : forall m, is_strict m = true <-> m = Strict. Proof. intros []; split; try discriminate; reflexivity. Qed.
(** The milliseconds *)
Definition millis (h : media) (d : N) : Prop := (h_scale h = 0 /\ d = 0) \/ (h_scale h <> 0 /\ 2 * d * h_scale h <= 2000 * h_duration h + h_scale h < 2 * (d + 1) * h_scale h).
Lemma timed_ok : forall h, media_ok h -> h_duration h < 2 ^ 54 -> exists d, timed h = Ok (set_duration d props_default) /\ millis h d.
Proof.
  intros h (_ & _ & _ & HS & _) HD. unfold timed, U64_MAX. destruct (N.ltb_spec 0 (h_scale h)) as [P|Z].
  - replace (18446744073709551615 <? h_duration h * 1000) with false by lia. pose proof (MathThm.C37_div_round 18446744073709551615 (h_duration h * 1000) (h_scale h)) as C.
    destruct (div_round _ _ _) as [d|e|]; [|contradiction|lia]. exists d. split; [reflexivity|]. right. lia.
  - exists 0. split; [reflexivity|]. left. lia.
Qed.
(** ** The whole *)
Definition readable (o : mopts) (f : afile) (il : option (list atom)) : Prop := exists brand tr, mp4_read (encs (f_top f)) o = Ok (brand, tr, il).
Lemma read_all_eq : forall o f il, afile_ok o f -> mo_props o = true -> h_duration (f_media f) < 2 ^ 54 -> readable o f il ->
  exists brand d, millis (f_media f) d /\ mp4_read_all (encs (f_top f)) o = (let? p := rest_of o f (set_duration d props_default) in Ok (il, set_ftyp brand p)).
Proof.
  intros o f il HA HP HD (brand & tr & HR). destruct (timed_ok (f_media f)) as (d & ET & HM); [apply HA|exact HD|]. exists brand, d. split; [exact HM|].
  unfold mp4_read_all. rewrite HR. cbn [bind]. rewrite HP, (props_upto o f brand tr il HA HP HR), ET. reflexivity.
Qed.
Definition complete (o : mopts) (f : afile) : Prop :=
  mo_props o = true /\ h_duration (f_media f) < 2 ^ 54 /\ lenN (encs (f_top f)) < 2 ^ 61 /\ (mdat_size (f_top f) <> None \/ mo_mode o <> Strict \/ h_duration (f_media f) = 0).
Lemma read_all_sound : forall o f il (R : mp4_props -> mp4_props -> Prop), afile_ok o f -> complete o f -> readable o f il ->
  (forall p, exists p', read_stsd (f_stsd f) (mo_mode o) p = Ok p' /\ R p p') ->
  exists p p1 d, mp4_read_all (encs (f_top f)) o = Ok (il, p) /\ same_sound p p1 /\ R (set_duration d props_default) p1 /\ millis (f_media f) d.
Proof.
  intros o f il R HA (HP & HD & HL & HM) HR HG. destruct (read_all_eq o f il HA HP HD HR) as (brand & d & HMS & E). destruct (HG (set_duration d props_default)) as (p1 & EG & RG).
  rewrite E. unfold rest_of. rewrite EG. cbn [bind].
  destruct (N.eqb_spec (h_duration (f_media f)) 0) as [Z|NZ]; [eexists _, p1, d; split; [reflexivity|split; [repeat split|split; [exact RG|exact HMS]]]|].
  destruct (mdat_size (f_top f)) as [n|] eqn:EM.
  - destruct (bit_rates_total (lenN (encs (f_top f))) n (h_scale (f_media f)) (h_duration (f_media f)) (Some (map snd (f_stts f))) p1) as (p' & EB & SS); [exact HL|now apply mdat_le|].
    rewrite EB. cbn [bind]. eexists _, p1, d. split; [reflexivity|]. split; [exact SS|split; [exact RG|exact HMS]].
  - destruct HM as [HM|[HM|HM]]; [congruence| |contradiction]. destruct (is_strict (mo_mode o)) eqn:ES; [apply strict_dec in ES; contradiction|].
    cbn [bind]. eexists _, p1, d. split; [reflexivity|split; [repeat split|split; [exact RG|exact HMS]]].
Qed.
Lemma stsd_small : forall o f, afile_ok o f -> lenN (f_stsd f) + 8 < 2 ^ 32.
Proof.
  intros o f (HO & _). unfold f_top in HO. apply Forall_app in HO. destruct HO as [_ HO]. apply Forall_inv in HO. apply node_len in HO. destruct HO as (_ & _ & HO).
  apply Forall_app in HO. destruct HO as [_ HO]. apply Forall_inv in HO. apply node_len in HO. destruct HO as (_ & _ & HO).
  apply Forall_app in HO. destruct HO as [_ HO]. apply Forall_inv in HO. apply node_len in HO. destruct HO as (_ & _ & HO).
  apply Forall_app in HO. destruct HO as [_ HO]. apply Forall_inv in HO. apply node_len in HO. destruct HO as (_ & _ & HO).
  apply Forall_app in HO. destruct HO as [_ HO]. apply Forall_inv in HO. apply node_len in HO. destruct HO as (_ & _ & HO).
  apply Forall_app in HO. destruct HO as [_ HO]. apply Forall_inv in HO. cbn [leaf box_ok] in HO. lia.
Qed.
Lemma readable_quiet : forall o f, afile_ok o f -> mo_props o = true -> (mo_tags o = false \/ none_named ($"udta") (f_k2 f)) -> Forall quiet_trak (f_trak f :: f_k2 f) -> readable o f None.
Proof.
  intros o f (HO & HF & N1 & NU & HQ & HS & _) HP NU2 HQ2.
  set (ks := f_k1 f ++ [f_trak f] ++ f_k2 f). assert (ET : f_top f = f_pre f ++ Node (8 + lenN (encs ks)) ($"moov") ks :: f_post f) by reflexivity.
  destruct (moov_start (f_top f) _ _ _ _ (mo_mode o) HO HF ET N1) as (s & r1 & V & r2 & MF & W).
  assert (BM : box_ok (Node (8 + lenN (encs ks)) ($"moov") ks)). { rewrite ET in HO. apply Forall_app in HO. destruct HO as [_ HO]. now inversion HO. }
  destruct (node_len _ _ _ BM) as (LM & _ & BK). set (r3 := reset_bounds _ _ r2) in W. assert (W' := W). rewrite <- (app_nil_r (encs ks)) in W'.
  destruct (parse_quiet_at (encs (f_top f)) o ks (S (length (encs (f_top f)))) r3 [] _ [] None HP W' BK) as (fuel & E & FU).
  - apply Forall_app. split; [exact HQ|exact HQ2].
  - destruct NU as [NU|NU]; [now left|]. destruct NU2 as [NU2|NU2]; [now left|]. right. apply Forall_app. split; [exact NU|]. constructor; [discriminate|exact NU2].
  - pose proof (within_len _ _ _ _ W). unfold lenN in *. lia.
  - exists s, (mdias (r_pos r3) ks). unfold mp4_read. rewrite V. cbn [bind]. rewrite MF. cbn [bind a_start a_len]. rewrite LM.
    replace (8 + lenN (encs ks) - 8) with (lenN (encs ks)) by lia. fold r3. rewrite E. cbn [app].
    apply within_adv with (n := lenN (encs ks)) in W'; [|reflexivity]. rewrite (parse_end _ _ _ _ _ _ _ W'); [reflexivity|]. pose proof (within_len _ _ _ _ W). unfold lenN in *. lia.
Qed.
