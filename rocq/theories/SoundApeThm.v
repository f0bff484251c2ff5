(** * C248 for APE, WavPack and Musepack: saving an APE tag does not change what is read about the audio *)
From Verif Require Import BaseLemmas StrLemmas TextProof ItemKeyThm TagThm Id3v1Model Id3v1Thm Id3v2HeaderModel Id3v2HeaderThm FrameReadModel ApeModel ApeProof ApeProof2 ApeThm ApeThm2 ApeThm3 MpegModel MpegProof3 TailProof MusepackProof2 MusepackThm WavPackProof2 WavPackThm ApePropsProof ApePropsThm.
From Verif Require Import GenericApeThm.
From Verif Require WavPackThm.
From Verif Require Import Base Str TagModel ApeModel.

(** ** WavPack *)
Definition same_wv (p q : wv_props) : Prop := exists overall, q = mkWP (wp_version p) (wp_duration p) overall (wp_audio p) (wp_rate p) (wp_channels p) (wp_mask p) (wp_depth p) (wp_lossless p).
Theorem C248_wavpack : forall C inflate o l k rate rest old new v1 v1t (t : tag C) cover f, let body := WavPackThm.wv_body l k rest in
  mo_props o = true -> Forall WavPackThm.silent l -> WavPackThm.whole k -> rate_is k rate -> rate < 2 ^ 32 -> ape_saved C inflate o [] body old new v1 None v1t t ->
  wv_read o (body ++ old ++ v1) = Ok f ->
  exists log f', ape_write (body ++ old ++ v1) cover true false (ape_ref_of_tag t) = Ok log /\ wv_read o (apply_log (body ++ old ++ v1) log) = Ok f' /\ same_wv (wf_props f) (wf_props f').
Proof.
  intros C inflate o l k rate rest old new v1 v1t t cover f body MP SI WH RA RL S R. destruct (ape_write_saved _ _ _ _ _ _ _ _ _ _ _ cover S) as (log & W & E). cbn [app] in W, E. exists log. rewrite E.
  destruct (saved_tail _ _ _ _ _ _ _ _ _ _ _ S) as (OT & _). destruct S as [TG FR (OT0 & FE0) (L1 & L2) _ V1 _ (_ & _ & FE)]. cbn [app] in *.
  destruct (WavPackProof2.read_shape o body old v1 v1t FE0 OT0 L1 V1) as (t0 & _ & R0). rewrite R in R0. rewrite MP in R0.
  destruct (WavPackProof2.read_shape o body new v1 v1t FE OT) as (t1 & _ & R1); auto. { rewrite lenN_app. lia. } rewrite MP in R1.
  unfold body in R0, R1. rewrite (WavPackThm.props_whole l k rate rest (mo_strict o) (old ++ v1) _ SI WH RA RL) in R0. rewrite (WavPackThm.props_whole l k rate rest (mo_strict o) (new ++ v1) _ SI WH RA RL) in R1. cbv zeta in R0, R1. fold body in R0, R1.
  destruct (total_word k =? U32_MAX); [|destruct (total_word k =? 0); [destruct (mo_strict o); [discriminate R0|]|]]; cbn [bind] in R0, R1; injection R0 as ->; eexists; (split; [exact W|]); (split; [exact R1|]); cbn [wf_props]; eexists; reflexivity.
Qed.
Print Assumptions C248_wavpack.

(** ** Musepack *)
(** Packets up to the end of the stream, or a header of version 7 or 4 to 6 *)
Inductive mpc_body (o : mopts) : bytes -> Prop :=
| mb_sv8 l n last rest : sv8_ok l n last -> contents_len l + lenN last <= U64_MAX -> mpc_body o (sv8_bytes l n last rest)
| mb_sv7 h audio : head7_ok h -> mpc_body o (head7_bytes h ++ audio)
| mb_sv6 h audio : head6_ok h -> (mo_strict o = true -> plain6 h) -> mpc_body o (head6_bytes h ++ audio).
Lemma stream_alone : forall log_peak o sl body a b, mo_props o = true -> mpc_body o body -> mpc_stream log_peak o sl (body ++ a) = mpc_stream log_peak o sl (body ++ b).
Proof.
  intros log_peak o sl body a b MP [l n last rest OK L|h audio OK|h audio OK PL].
  - unfold sv8_bytes. rewrite <- !app_assoc. rewrite !sv8_start by auto. rewrite !sv8_shape by auto. reflexivity.
  - rewrite <- !app_assoc. rewrite !sv7_start by auto. rewrite !sv7_shape by auto. reflexivity.
  - rewrite <- !app_assoc. rewrite !sv6_start by auto. rewrite !sv6_shape by auto. reflexivity.
Qed.
Theorem C248_musepack : forall C inflate log_peak o pre body old new v1 v2 v1t (t : tag C) cover f, mo_props o = true -> mpc_body o body -> ape_saved C inflate o pre body old new v1 v2 v1t t ->
  mpc_read inflate log_peak o (pre ++ body ++ old ++ v1) = Ok f ->
  exists log f', ape_write (pre ++ body ++ old ++ v1) cover true false (ape_ref_of_tag t) = Ok log /\
    mpc_read inflate log_peak o (apply_log (pre ++ body ++ old ++ v1) log) = Ok f' /\ MusepackModel.mc_props f' = MusepackModel.mc_props f.
Proof.
  intros C inflate log_peak o pre body old new v1 v2 v1t t cover f MP MB S R. destruct (ape_write_saved _ _ _ _ _ _ _ _ _ _ _ cover S) as (log & W & E). exists log. rewrite E.
  destruct (saved_tail _ _ _ _ _ _ _ _ _ _ _ S) as (OT & _). destruct S as [TG FR (OT0 & FE0) (L1 & L2) (S1 & S2 & _) V1 _ (_ & _ & FE)].
  destruct (mpc_shape inflate log_peak o pre body old v1 v2 v1t) as (t0 & _ & R0); auto. { repeat (split; [assumption|]); assumption. } rewrite R, TG in R0. cbn [negb andb] in R0.
  destruct (mpc_shape inflate log_peak o pre body new v1 v2 v1t) as (t1 & _ & R1); auto. { repeat (split; [assumption|]); assumption. } { rewrite lenN_app. lia. } rewrite TG in R1. cbn [negb andb] in R1.
  rewrite (stream_alone log_peak o _ body (new ++ v1) (old ++ v1) MP MB) in R1. destruct (mpc_stream _ _ _ _) as [p| |]; cbn [bind] in R0, R1; try discriminate R0. injection R0 as ->.
  eexists. split; [exact W|]. split; [exact R1|]. reflexivity.
Qed.
Print Assumptions C248_musepack.

(** ** APE *)
Definition same_mac (p q : mac_props) : Prop := exists overall, q = mkMac (mac_version p) (mac_duration p) overall (mac_audio p) (mac_rate p) (mac_depth p) (mac_channels p).
(** The header is all in the audio: [m] is what follows the four letters MAC and a space. *)
Definition whole_header (m : bytes) : Prop :=
  2 <= lenN m /\ (if 3980 <=? le_dec (takeN 2 m) then 72 + (le_dec (takeN 4 (dropN 4 m)) - 52) <= lenN m else 28 <= lenN m).
Lemma read_within : forall n m x, n <= lenN m -> read_exact n (m ++ x) = Some (takeN n m, dropN n m ++ x).
Proof. intros n m x L. rewrite <- (firstn_skipn (N.to_nat n) m) at 1. fold (takeN n m). fold (dropN n m). rewrite <- app_assoc. apply read_exact_app. rewrite lenN_takeN. lia. Qed.
Definition alike (r r' : res mac_error mac_props) : Prop := match r, r' with Ok p, Ok q => same_mac p q | Err e, Err e' => e = e' | _, _ => False end.
Lemma finish_alike : forall strict p n n' frames final per sl, alike (mac_finish strict p n frames final per sl) (mac_finish strict p n' frames final per sl).
Proof.
  intros strict p n n' frames final per sl. assert (SP : same_mac p p) by (exists (mac_overall p); destruct p; reflexivity). unfold mac_finish. destruct (mac_verify frames (mac_channels p)) as [u|e|] eqn:V.
  - cbn [alike]. unfold mac_times. destruct (0 <? mac_rate p); auto. eexists. reflexivity.
  - destruct strict; cbn [alike]; auto.
  - unfold mac_verify in V. destruct (negb _); [discriminate V|]. destruct (frames =? 0); discriminate V.
Qed.
Lemma bind_alike : forall A (e : res mac_error A) f f', e <> Panic -> (forall a, alike (f a) (f' a)) -> alike (bind e f) (bind e f').
Proof. intros A [a|e|] f f' N H; cbn [bind]; [apply H|reflexivity|now apply N]. Qed.
Lemma mac_alike : forall m x y sl n n' strict, whole_header m -> alike (mac_read (m ++ x) sl n strict) (mac_read (m ++ y) sl n' strict).
Proof.
  assert (NP : forall A e (a : option A), or_mac e a <> Panic) by (intros A e [a|]; discriminate).
  intros m x y sl n n' strict (L2 & H). unfold mac_read, read_le. rewrite !read_within by auto. cbn [or_mac bind]. destruct (3980 <=? le_dec (takeN 2 m)).
  - unfold mac_new. set (dl := le_dec (takeN 4 (dropN 4 m))) in *. rewrite !(read_within 46) by (rewrite lenN_dropN; lia). cbn [or_mac bind].
    replace (le_dec (takeN 4 (dropN 2 (takeN 46 (dropN 2 m))))) with dl.
    2:{ unfold dl. f_equal. replace (dropN 4 m) with (dropN 2 (dropN 2 m)) by (rewrite dropN_dropN; reflexivity). generalize (dropN 2 m). intros u. unfold takeN, dropN. rewrite skipn_firstn_comm, firstn_firstn. reflexivity. }
    assert (EQ : forall z, (if 52 <? dl then dropN (dl - 52) (dropN 46 (dropN 2 m) ++ z) else dropN 46 (dropN 2 m) ++ z) = (if 52 <? dl then dropN (dl - 52) (dropN 46 (dropN 2 m)) else dropN 46 (dropN 2 m)) ++ z).
    { intros z. destruct (52 <? dl); auto. apply dropN_app_le. rewrite !lenN_dropN. lia. }
    rewrite !EQ. rewrite !(read_within 24) by (destruct (N.ltb_spec 52 dl); rewrite !lenN_dropN; lia). cbn [or_mac bind].
    repeat (apply bind_alike; [apply NP|]; intros [? ?]). apply finish_alike.
  - unfold mac_old. rewrite !(read_within 26) by (rewrite lenN_dropN; lia). cbn [or_mac bind].
    repeat (apply bind_alike; [apply NP|]; intros [? ?]). apply finish_alike.
Qed.
Theorem C248_ape : forall C inflate o pre m old new v1 v2 v1t (t : tag C) cover f, let body := $"MAC " ++ m in mo_props o = true -> whole_header m -> ape_saved C inflate o pre body old new v1 v2 v1t t ->
  mac_file_read inflate o (pre ++ body ++ old ++ v1) = Ok f ->
  exists log f', ape_write (pre ++ body ++ old ++ v1) cover true false (ape_ref_of_tag t) = Ok log /\
    mac_file_read inflate o (apply_log (pre ++ body ++ old ++ v1) log) = Ok f' /\ same_mac (mc_props f) (mc_props f').
Proof.
  intros C inflate o pre m old new v1 v2 v1t t cover f body MP WH S R. destruct (ape_write_saved _ _ _ _ _ _ _ _ _ _ _ cover S) as (log & W & E). exists log. rewrite E.
  destruct (saved_tail _ _ _ _ _ _ _ _ _ _ _ S) as (OT & _). destruct S as [TG FR (OT0 & FE0) (L1 & L2) _ V1 _ (_ & _ & FE)].
  destruct (mac_shape inflate o pre m old v1 v2 v1t) as (t0 & _ & R0). { repeat (split; [assumption|]). assumption. } { exact L1. } fold body in R0. rewrite R, MP in R0.
  destruct (mac_shape inflate o pre m new v1 v2 v1t) as (t1 & _ & R1). { repeat (split; [assumption|]). assumption. } { rewrite lenN_app. fold body. lia. } fold body in R1. rewrite MP in R1.
  pose proof (mac_alike m (old ++ v1) (new ++ v1) (lenN body) (reached o pre body old) (reached o pre body new) (mo_strict o) WH) as A.
  destruct (mac_read (m ++ old ++ v1) _ _ _) as [p| |]; cbn [bind] in R0; try discriminate R0. injection R0 as ->. destruct (mac_read (m ++ new ++ v1) _ _ _) as [q| |]; cbn [alike] in A; try contradiction. cbn [bind] in R1.
  eexists. split; [exact W|]. split; [exact R1|]. exact A.
Qed.
Print Assumptions C248_ape.

(** ** Examples *)
Definition told_again (data : bytes) (t : tag unit) : option bytes := match ape_write data true true false (ape_ref_of_tag t) with Ok log => Some (apply_log data log) | _ => None end.
Definition sound_mo : mopts := mkMO (mkFO Strict true false) true true 1024.
Example C248_ape_ex : exists d f f', whole_header (dropN 4 (ex_body 14472 2)) /\ told_again (ex_body 14472 2) ex_some = Some d /\ mac_file_read ex_none sound_mo (ex_body 14472 2) = Ok f /\ mac_file_read ex_none sound_mo d = Ok f' /\
  mac_duration (mc_props f) = 2000 /\ mac_duration (mc_props f') = 2000 /\ mac_audio (mc_props f) = mac_audio (mc_props f') /\ mac_overall (mc_props f) < mac_overall (mc_props f').
Proof. eexists _, _, _. split; [split; vm_compute; discriminate|]. split; [vm_compute; reflexivity|]. split; [vm_compute; reflexivity|]. split; [vm_compute; reflexivity|]. repeat split. Qed.
Example C248_wavpack_ex : exists d f f', let body := WavPackThm.wv_body [(ex_intro, 44100)] ex_mono [] in told_again body ex_some = Some d /\ wv_read sound_mo body = Ok f /\ wv_read sound_mo d = Ok f' /\
  wp_duration (wf_props f) = 1000 /\ wp_duration (wf_props f') = 1000 /\ wp_audio (wf_props f) = wp_audio (wf_props f') /\ wp_overall (wf_props f) < wp_overall (wf_props f').
Proof. eexists _, _, _. cbv zeta. split; [vm_compute; reflexivity|]. split; [vm_compute; reflexivity|]. split; [vm_compute; reflexivity|]. repeat split. Qed.
Example C248_musepack_ex : exists d f f', let body := head7_bytes (ex_h7 100 true 1152 0) ++ repeat 3 1000 in mpc_body sound_mo body /\ told_again body ex_some = Some d /\
  mpc_read ex_none same_peak sound_mo body = Ok f /\ mpc_read ex_none same_peak sound_mo d = Ok f' /\ MusepackModel.mc_props f = MusepackModel.mc_props f'.
Proof. eexists _, _, _. cbv zeta. split; [constructor; apply ex_sv7|]. split; [vm_compute; reflexivity|]. split; [vm_compute; reflexivity|]. split; [vm_compute; reflexivity|]. reflexivity. Qed.
