(** Proofs about MPEG frame headers. *)
From Verif Require Import BaseLemmas StrLemmas.
From Verif Require Export MpegSpec.

Lemma field : forall w k j a b c, w = a * 2 ^ (k + j) + b * 2 ^ k + c -> b < 2 ^ j -> c < 2 ^ k -> N.land (N.shiftr w k) (N.ones j) = b.
Proof.
  intros w k j a b c -> B C. rewrite N.land_ones, N.shiftr_div_pow2. rewrite N.pow_add_r.
  replace (a * (2 ^ k * 2 ^ j) + b * 2 ^ k + c) with ((a * 2 ^ j + b) * 2 ^ k + c) by lia.
  rewrite N.div_add_l by (apply N.pow_nonzero; lia). rewrite (N.div_small c) by auto. rewrite N.add_0_r.
  rewrite N.add_comm, N.mod_add by (apply N.pow_nonzero; lia). now apply N.mod_small.
Qed.
Definition version_bits (v : mpeg_version) : N := match v with MV2_5 => 0 | MV2 => 2 | MV1 => 3 end.
Definition layer_bits (l : layer) : N := match l with Layer3 => 1 | Layer2 => 2 | Layer1 => 3 end.
Definition mode_bits (m : channel_mode) : N := match m with Stereo => 0 | JointStereo => 1 | DualChannel => 2 | SingleChannel => 3 end.
Definition emph_bits (e : option emphasis) : N := match e with None => 0 | Some MS5015 => 1 | Some EReserved => 2 | Some CCIT_J17 => 3 end.
Lemma bit_lt : forall b, bit b < 2. Proof. intros []; cbv; auto. Qed.
Lemma version_lt : forall v, version_bits v < 4. Proof. intros []; cbv; auto. Qed.
Lemma layer_lt : forall v, layer_bits v < 4. Proof. intros []; cbv; auto. Qed.
Lemma mode_lt : forall v, mode_bits v < 4. Proof. intros []; cbv; auto. Qed.
Lemma emph_lt : forall v, emph_bits v < 4. Proof. intros [[]|]; cbv; auto. Qed.
(** All fields of the word. *)
Lemma word_fields : forall f, valid f -> let w := word f in
  N.land (N.shiftr w 19) 3 = version_bits (fl_version f) /\ N.land (N.shiftr w 17) 3 = layer_bits (fl_layer f) /\
  N.land (N.shiftr w 12) 15 = fl_bitrate f /\ N.land (N.shiftr w 10) 3 = fl_rate f /\ N.land (N.shiftr w 9) 1 = bit (fl_padded f) /\
  N.land (N.shiftr w 6) 3 = mode_bits (fl_mode f) /\ N.land (N.shiftr w 4) 3 = fl_ext f /\ N.land (N.shiftr w 3) 1 = bit (fl_copyright f) /\
  N.land (N.shiftr w 2) 1 = bit (fl_original f) /\ N.land w 3 = emph_bits (fl_emphasis f) /\ w < 2 ^ 32 /\ 0x7FF * 2 ^ 21 <= w.
Proof.
  intros f (B & R & E) w.
  pose proof (version_lt (fl_version f)) as H1. pose proof (layer_lt (fl_layer f)) as H2. pose proof (mode_lt (fl_mode f)) as H3.
  pose proof (emph_lt (fl_emphasis f)) as H4. pose proof (bit_lt (fl_unprotected f)) as H5. pose proof (bit_lt (fl_padded f)) as H6.
  pose proof (bit_lt (fl_private f)) as H7. pose proof (bit_lt (fl_copyright f)) as H8. pose proof (bit_lt (fl_original f)) as H9.
  subst w. unfold word.
  fold (version_bits (fl_version f)). fold (layer_bits (fl_layer f)). fold (mode_bits (fl_mode f)). fold (emph_bits (fl_emphasis f)).
  set (v := version_bits _) in *. set (l := layer_bits _) in *. set (m := mode_bits _) in *. set (e := emph_bits _) in *.
  set (u := bit (fl_unprotected f)) in *. set (p := bit (fl_padded f)) in *. set (q := bit (fl_private f)) in *. set (c := bit (fl_copyright f)) in *.
  set (o := bit (fl_original f)) in *. set (b := fl_bitrate f) in *. set (r := fl_rate f) in *. set (x := fl_ext f) in *.
  set (w := _ + e). clearbody v l m e u p q c o b r x.
  assert (W0 : N.shiftr w 0 = w) by apply N.shiftr_0_r.
  repeat split.
  - apply (field w 19 2 0x7FF v (l * 2 ^ 17 + u * 2 ^ 16 + b * 2 ^ 12 + r * 2 ^ 10 + p * 2 ^ 9 + q * 2 ^ 8 + m * 2 ^ 6 + x * 2 ^ 4 + c * 2 ^ 3 + o * 2 ^ 2 + e)); subst w; lia.
  - apply (field w 17 2 (0x7FF * 4 + v) l (u * 2 ^ 16 + b * 2 ^ 12 + r * 2 ^ 10 + p * 2 ^ 9 + q * 2 ^ 8 + m * 2 ^ 6 + x * 2 ^ 4 + c * 2 ^ 3 + o * 2 ^ 2 + e)); subst w; lia.
  - apply (field w 12 4 ((0x7FF * 4 + v) * 8 + l * 2 + u) b (r * 2 ^ 10 + p * 2 ^ 9 + q * 2 ^ 8 + m * 2 ^ 6 + x * 2 ^ 4 + c * 2 ^ 3 + o * 2 ^ 2 + e)); subst w; lia.
  - apply (field w 10 2 (((0x7FF * 4 + v) * 8 + l * 2 + u) * 16 + b) r (p * 2 ^ 9 + q * 2 ^ 8 + m * 2 ^ 6 + x * 2 ^ 4 + c * 2 ^ 3 + o * 2 ^ 2 + e)); subst w; lia.
  - apply (field w 9 1 ((((0x7FF * 4 + v) * 8 + l * 2 + u) * 16 + b) * 4 + r) p (q * 2 ^ 8 + m * 2 ^ 6 + x * 2 ^ 4 + c * 2 ^ 3 + o * 2 ^ 2 + e)); subst w; lia.
  - apply (field w 6 2 (((((0x7FF * 4 + v) * 8 + l * 2 + u) * 16 + b) * 4 + r) * 4 + p * 2 + q) m (x * 2 ^ 4 + c * 2 ^ 3 + o * 2 ^ 2 + e)); subst w; lia.
  - apply (field w 4 2 ((((((0x7FF * 4 + v) * 8 + l * 2 + u) * 16 + b) * 4 + r) * 4 + p * 2 + q) * 4 + m) x (c * 2 ^ 3 + o * 2 ^ 2 + e)); subst w; lia.
  - apply (field w 3 1 (((((((0x7FF * 4 + v) * 8 + l * 2 + u) * 16 + b) * 4 + r) * 4 + p * 2 + q) * 4 + m) * 4 + x) c (o * 2 ^ 2 + e)); subst w; lia.
  - apply (field w 2 1 ((((((((0x7FF * 4 + v) * 8 + l * 2 + u) * 16 + b) * 4 + r) * 4 + p * 2 + q) * 4 + m) * 4 + x) * 2 + c) o e); subst w; lia.
  - rewrite <- W0 at 1. apply (field w 0 2 (((((((((0x7FF * 4 + v) * 8 + l * 2 + u) * 16 + b) * 4 + r) * 4 + p * 2 + q) * 4 + m) * 4 + x) * 2 + c) * 2 + o) e 0); subst w; lia.
  - subst w. lia.
  - subst w. lia.
Qed.
Definition mode_ext_of (f : fields) : option N := match fl_mode f with JointStereo => Some (fl_ext f) | _ => None end.
Definition code_length (f : fields) : N :=
  samples_of f * bitrate_of f * 125 / rate_of f + (if fl_padded f then match fl_layer f with Layer1 => 4 | _ => 1 end else 0).
Definition header_of (f : fields) : mheader :=
  mkMH (rate_of f) (code_length f) (xing_offset f) (samples_of f) (bitrate_of f) (fl_version f) (fl_layer f) (fl_mode f) (mode_ext_of f)
    (fl_copyright f) (fl_original f) (fl_emphasis f).
Lemma bitrate_pos : forall f, valid f -> bitrate_of f <> 0.
Proof.
  intros f ((B1 & B2) & _). unfold bitrate_of.
  assert (X : In (fl_bitrate f) [1;2;3;4;5;6;7;8;9;10;11;12;13;14]) by (cbn [In]; lia).
  cbn [In] in X. repeat destruct X as [<-|X]; try contradiction; destruct (fl_version f), (fl_layer f); vm_compute; discriminate.
Qed.
Lemma decode : forall f, valid f -> header_read (word f) = Some (header_of f).
Proof.
  intros f V. pose proof (word_fields f V) as H. cbv zeta in H. destruct H as (H1 & H2 & H3 & H4 & H5 & H6 & H7 & H8 & H9 & H10 & _).
  unfold header_read. rewrite H1, H2, H3, H4, H5, H6, H7, H8, H9, H10. clear H1 H2 H3 H4 H5 H6 H7 H8 H9 H10.
  pose proof (bitrate_pos f V) as BP. destruct V as ((B1 & B2) & R & E).
  destruct f as [v l u b r p q m x c o e]. cbn [fl_version fl_layer fl_bitrate fl_rate fl_padded fl_mode fl_ext fl_copyright fl_original fl_emphasis] in *.
  unfold header_of, code_length, mode_ext_of, xing_offset, rate_of, samples_of. unfold bitrate_of in *.
  cbn [fl_version fl_layer fl_bitrate fl_rate fl_padded fl_mode fl_ext fl_copyright fl_original fl_emphasis] in *.
  assert (X : In b [1;2;3;4;5;6;7;8;9;10;11;12;13;14]) by (cbn [In]; lia).
  assert (Y : In r [0;1;2]) by (cbn [In]; lia).
  assert (EE : (if emph_bits e =? 0 then None else if emph_bits e =? 1 then Some MS5015 else if emph_bits e =? 2 then Some EReserved else Some CCIT_J17) = e) by (destruct e as [[]|]; reflexivity).
  assert (C1 : forall y, (bit y =? 1) = y) by (intros []; reflexivity).
  rewrite EE, !C1. clear EE.
  cbn [In] in X, Y. clear B1 B2 BP E.
  destruct v, l; cbn [version_bits layer_bits]; (destruct Y as [<-|[<-|[<-|[]]]]); repeat destruct X as [<-|X]; try contradiction; destruct m, p; vm_compute; reflexivity.
Qed.
(** The lengths agree with the standard except in layer I when the rate is a multiple of 11025. *)
Lemma lengths : forall f, valid f -> regular f -> code_length f = length_of f.
Proof.
  intros f ((B1 & B2) & R & _) RG. destruct f as [v l u b r p q m x c o e]. unfold regular in RG.
  unfold code_length, length_of, rate_of, samples_of, bitrate_of.
  cbn [fl_version fl_layer fl_bitrate fl_rate fl_padded fl_mode fl_ext fl_copyright fl_original fl_emphasis] in *.
  assert (X : In b [1;2;3;4;5;6;7;8;9;10;11;12;13;14]) by (cbn [In]; lia).
  assert (Y : In r [0;1;2]) by (cbn [In]; lia). cbn [In] in X, Y. clear B1 B2 R.
  destruct l; [destruct Y as [<-|Y]; [exfalso; destruct RG; congruence|]| | ];
  destruct v; repeat destruct Y as [<-|Y]; try contradiction; repeat destruct X as [<-|X]; try contradiction; destruct p; vm_compute; reflexivity.
Qed.
(** No header of a frame is cut by the windows of the search for the last frame. *)
Lemma lengths_mod : forall f, valid f -> 24 <= code_length f < 5000 /\ (code_length f mod 1024 = 0 \/ 4 <= code_length f mod 1024).
Proof.
  intros f ((B1 & B2) & R & _). destruct f as [v l u b r p q m x c o e].
  unfold code_length, rate_of, samples_of, bitrate_of.
  cbn [fl_version fl_layer fl_bitrate fl_rate fl_padded fl_mode fl_ext fl_copyright fl_original fl_emphasis] in *.
  assert (X : In b [1;2;3;4;5;6;7;8;9;10;11;12;13;14]) by (cbn [In]; lia).
  assert (Y : In r [0;1;2]) by (cbn [In]; lia). cbn [In] in X, Y. clear B1 B2 R.
  assert (D : forall n, (24 <=? n) && (n <? 5000) && ((n mod 1024 =? 0) || (4 <=? n mod 1024)) = true -> 24 <= n < 5000 /\ (n mod 1024 = 0 \/ 4 <= n mod 1024)).
  { intros n H. apply andb_true_iff in H as [H H3]. apply andb_true_iff in H as [H1 H2]. apply orb_true_iff in H3.
    apply N.leb_le in H1. apply N.ltb_lt in H2. split; [auto|]. destruct H3 as [H3|H3]; [apply N.eqb_eq in H3|apply N.leb_le in H3]; auto. }
  apply D.
  destruct l, v; repeat destruct Y as [<-|Y]; try contradiction; repeat destruct X as [<-|X]; try contradiction; destruct p; vm_compute; reflexivity.
Qed.
Lemma rate_pos : forall f, valid f -> 8000 <= rate_of f <= 48000.
Proof.
  intros f (_ & R & _). destruct f as [v l u b r p q m x c o e]. unfold rate_of. cbn [fl_version fl_rate] in *.
  assert (Y : In r [0;1;2]) by (cbn [In]; lia). cbn [In] in Y. destruct v; repeat destruct Y as [<-|Y]; try contradiction; vm_compute; split; discriminate.
Qed.
