(** Musepack version 8 without the header or the gains, read without strictness (C186). *)
From Verif Require Import BaseLemmas StrLemmas MathModel MathThm Id3v1Model Id3v1Thm Id3v2HeaderModel Id3v2HeaderProof FrameReadModel ApeModel ApeThm2 AiffModel MpegModel MpegProof MpegProof3 TailProof MusepackThm.
From Verif Require Import Base Str.

(** Without a header nothing is known; the gains and the encoder are there if the file has them. *)
Theorem C186_no_header : forall inflate log_peak o pre l n last rest ape v1 v2 v1t, let body := sv8_bytes l n last rest in
  mo_props o = true -> mo_strict o = false -> mpc_tags inflate o pre body ape v1 v2 v1t -> (mo_tags o = true \/ lenN ape <= lenN pre + lenN body + 32) -> 32 <= lenN (body ++ ape) -> sv8_ok l n last -> contents_len l + lenN last < 2 ^ 64 -> the_head l = None ->
  read_as inflate log_peak o pre body ape v1 v2 v1t (P8 (mk8 0 0 (mkSH 0 0 0 0 0 0 0 false 0) (match the_gain l with Some g => gain_is g | None => mkRG 0 0 0 0 0 end) (option_map enc_is (the_enc l)))).
Proof.
  intros inflate log_peak o pre l n last rest ape v1 v2 v1t body MP ST MT SZ L32 OK SL TH.
  apply MusepackThm.read_shape; auto. { apply sv8_not_id3. }
  unfold body, sv8_bytes. rewrite <- !app_assoc. rewrite sv8_start by auto. rewrite sv8_shape by (auto; unfold U64_MAX; lia). rewrite ST, TH. rewrite andb_false_r. destruct (the_gain l); reflexivity.
Qed.
(** Without gains they are 0, and the rest is as usual. *)
Theorem C186_no_gain : forall inflate log_peak o pre l n last rest ape v1 v2 v1t h, let body := sv8_bytes l n last rest in let total := e_samples h - e_silence h in let len := contents_len l + lenN last in let rate := mpc_rate (e_rate h) in
  mo_props o = true -> mo_strict o = false -> mpc_tags inflate o pre body ape v1 v2 v1t -> (mo_tags o = true \/ lenN ape <= lenN pre + lenN body + 32) -> 32 <= lenN (body ++ ape) -> sv8_ok l n last -> the_head l = Some h -> the_gain l = None -> head8_ok h ->
  e_silence h < e_samples h -> total < 2 ^ 54 -> len < 2 ^ 45 -> len * 8 * rate < 2 ^ 32 * (total * 1000) ->
  exists d b, read_as inflate log_peak o pre body ape v1 v2 v1t (P8 (mk8 d b (header_is h) (mkRG 0 0 0 0 0) (option_map enc_is (the_enc l)))) /\ MusepackThm.nearest d (total * 1000) rate /\ b = len * 8 * rate / (total * 1000).
Proof.
  intros inflate log_peak o pre l n last rest ape v1 v2 v1t h body total len rate MP ST MT SZ L32 OK TH TG HO SI T54 LL BL.
  assert (RP : 32000 <= rate <= 48000) by (apply rate_pos; apply HO).
  pose proof (sv8_shape (mo_strict o) l n last (rest ++ ape ++ v1) OK) as SH. fold len in SH. specialize (SH ltac:(unfold U64_MAX; lia)). rewrite TH, TG, ST in SH. cbn [bind] in SH. rewrite andb_false_r in SH.
  unfold sv8_finish in SH. change (sh_samples (header_is h)) with (e_samples h) in SH. change (sh_silence (header_is h)) with (e_silence h) in SH. change (sh_rate (header_is h)) with rate in SH.
  destruct (N.ltb_spec (e_samples h) (e_silence h)); [lia|]. destruct (N.eqb_spec rate 0); [lia|]. destruct (N.eqb_spec (e_samples h) 0); [lia|]. fold total in SH. assert (TP : 0 < total) by (unfold total; lia). destruct (N.eqb_spec total 0); [lia|].
  unfold u64_mul, u64_div_round, u64_div in SH. destruct (N.ltb_spec U64_MAX (total * 1000)) as [X|X]; [unfold U64_MAX in X; lia|]. cbn [bind] in SH.
  pose proof (C37_div_round U64_MAX (total * 1000) rate) as D. destruct (div_round _ _ _) as [q| |]; [|contradiction|exfalso; destruct D as [D|D]; [lia|]; assert (rate / 2 <= 24000) by (apply N.div_le_upper_bound; lia); unfold U64_MAX in D; lia]. cbn [bind] in SH. destruct D as [_ D].
  destruct (N.ltb_spec U64_MAX (len * 8)) as [Y|Y]; [unfold U64_MAX in Y; lia|]. cbn [bind] in SH. assert (SB : len * 8 * rate <= len * 8 * 48000) by (apply N.mul_le_mono_l; lia). destruct (N.ltb_spec U64_MAX (len * 8 * rate)) as [Z|Z]; [unfold U64_MAX in Z; lia|]. cbn [bind] in SH.
  destruct (N.eqb_spec (total * 1000) 0); [lia|]. cbn [bind] in SH. rewrite (N.mod_small (_ / _)) in SH by (apply N.div_lt_upper_bound; [lia|lia]).
  exists q, (len * 8 * rate / (total * 1000)). split; [|split; [exact D|reflexivity]]. apply MusepackThm.read_shape; auto. { apply sv8_not_id3. }
  unfold body, sv8_bytes. rewrite <- !app_assoc. rewrite sv8_start by auto. rewrite ST, SH. reflexivity.
Qed.
Example C186_no_header_example : mpc_read no_inflate same_peak (ex_opts false true) (sv8_bytes [(1%nat, KGain ex_g8 []); (1%nat, KOther ($"AP") (repeat 9 60))] 1 [] []) =
  Ok (mkMC Sv8 None None None (P8 (mk8 0 0 (mkSH 0 0 0 0 0 0 0 false 0) (mkRG 1 0x1000 0x2000 0x3000 0x4000) None))).
Proof. vm_compute. reflexivity. Qed.
