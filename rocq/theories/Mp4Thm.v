From Verif Require Import Base BaseLemmas Str StrLemmas TextModel TextSpec TextProof Mode PictureModel FileModel Mp4Model Mp4WriteModel Mp4Spec Mp4Proof Mp4Proof2 Mp4Proof3 Mp4Proof5 Mp4Proof6 Mp4Proof7 Mp4Proof8 Mp4Proof9.

(** * C114: items survive writing and parsing *)
Lemma write_data_total : forall t d, dbox_ok (t, d) -> write_data t d = Ok (dbox (t, d)).
Proof.
  intros t d [H1 H2]. cbn [fst snd] in *. unfold write_data. replace (16777215 <? t) with false by lia. unfold atom_bytes. cbv zeta.
  rewrite lenN_cons, !lenN_app, be_enc_len. change (lenN [0; 0; 0; 0]) with 4. replace (U32_MAX <? _) with false by (unfold U32_MAX; lia).
  unfold dbox, sbox. cbn [fst snd]. rewrite lenN_cons, !lenN_app, be_enc_len. reflexivity.
Qed.
Lemma write_value_total : forall d, writable d -> dbox_ok (coded d) -> write_value d = Ok (dbox (coded d)).
Proof.
  intros d W H. destruct d; cbn [write_value coded] in *; try (now apply write_data_total); try contradiction.
  - cbn [writable In] in W. destruct W as [W|[W|[W|[W|[W|[]]]]]]; rewrite <- W in *; cbn [pic_code] in *; now apply write_data_total.
  - rewrite unsigned_bytes by exact W. now apply write_data_total.
Qed.
Lemma codes_ok : forall i ds, values_ok i ds -> Forall (fun d => fst (coded d) < 2 ^ 24) ds.
Proof.
  assert (K : forall c, In c [0; 1; 2; 12; 13; 14; 21; 22; 27] -> c < 2 ^ 24).
  { intros c H. repeat (destruct H as [<-|H]; [reflexivity|]). destruct H. }
  intros i ds H. destruct H as [ds H|ds H|ds H|f b H|i ds H _].
  - eapply Forall_impl; [|exact H]. intros d D. destruct d; try contradiction. destruct D as (_ & _ & _ & D). cbn [coded fst]. apply K.
    destruct D as [E|[E|[E|[E|[E|[]]]]]]; rewrite <- E; cbn [pic_code In]; tauto.
  - eapply Forall_impl; [|exact H]. intros d D. destruct d; try contradiction. apply D.
  - eapply Forall_impl; [|exact H]. intros d D. destruct d; try contradiction. apply D.
  - constructor; [|constructor]. apply K. cbn [coded fst In]. tauto.
  - eapply Forall_impl; [|exact H]. intros d D. destruct d; try contradiction; try (apply K; cbn [coded fst In]; tauto). apply D.
Qed.
Theorem C114_builds : forall l, Forall atom_ok l -> l <> [] -> 8 + lenN (flat_map item_box l) < 2 ^ 32 ->
  build_ilst l = Ok (sbox ($"ilst") (flat_map item_box l)).
Proof.
  intros l HA NE HL. assert (W : write_items l = Ok (flat_map item_box l)).
  { clear NE. induction l as [|a l IH]; [reflexivity|]. inversion HA; subst. cbn [flat_map] in *. rewrite lenN_app in HL. cbn [write_items].
    rewrite IH by (auto; lia).
    assert (E : write_item a = Ok (item_box a)); [|rewrite E; reflexivity].
    destruct a as [i ds], H1 as (HI & _ & HV). cbn [at_ident at_data] in *. unfold write_item. cbn [at_ident at_data].
    pose proof (values_writable _ _ HV) as WV. pose proof (codes_ok _ _ HV) as CO.
    assert (LV : lenN (flat_map dbox (map coded ds)) < 2 ^ 32 - 8).
    { destruct i; unfold item_box in HL; cbn [at_ident at_data] in HL; rewrite lenN_sbox in HL by (try apply HI; reflexivity); rewrite ?lenN_app in HL; lia. }
    assert (EV : write_values ds = Ok (flat_map dbox (map coded ds))).
    { clear - WV CO LV. induction ds as [|d ds IH]; [reflexivity|]. inversion WV; inversion CO; subst. cbn [write_values map flat_map] in *. rewrite lenN_app, len_dbox in LV.
      rewrite write_value_total; auto; [|split; [exact H5|lia]]. rewrite IH by (auto; lia). reflexivity. }
    rewrite EV. cbn [bind]. destruct i as [f|mean name]; cbn [ident_content]; unfold item_box in *; cbn [at_ident at_data] in *.
    - unfold atom_bytes. cbv zeta. cbn [app]. replace (U32_MAX <? _) with false by (unfold U32_MAX; lia). reflexivity.
    - rewrite lenN_sbox, lenN_app in HL by reflexivity. unfold name_boxes in *. rewrite lenN_app, !lenN_sbox, !lenN_app in HL by reflexivity. change (lenN [0; 0; 0; 0]) with 4 in HL.
      rewrite !N.mod_small by lia. unfold atom_bytes, sbox. cbv zeta. rewrite !lenN_app, !be4_len. change (lenN [0; 0; 0; 0]) with 4. change (lenN ($"mean")) with 4. change (lenN ($"name")) with 4.
      replace (U32_MAX <? _) with false by (unfold U32_MAX; lia). rewrite <- !app_assoc.
      replace (12 + lenN (utf8_enc mean)) with (8 + (4 + lenN (utf8_enc mean))) by lia. replace (12 + lenN (utf8_enc name)) with (8 + (4 + lenN (utf8_enc name))) by lia.
      cbn [app]. do 3 f_equal. lia. }
  unfold build_ilst. destruct l; [congruence|]. rewrite W. cbn [bind]. unfold atom_bytes. cbv zeta. replace (U32_MAX <? _) with false by (unfold U32_MAX; lia). reflexivity.
Qed.
Print Assumptions C114_builds.
Theorem C114_roundtrip : forall o l, Forall atom_ok l -> Forall (kept o) l -> 8 + lenN (flat_map item_box l) < 2 ^ 32 ->
  parse_ilst o (flat_map item_box l) = Ok l.
Proof.
  intros o l HA HK HL. destruct l as [|a l]; [reflexivity|]. pose proof (C114_builds (a :: l) HA ltac:(discriminate) HL) as B.
  destruct (build_ilst_ok _ _ HA B) as [[E _]|(_ & _ & _ & P)]; [discriminate|]. now apply P.
Qed.
Print Assumptions C114_roundtrip.
Definition o_all : mopts := mkMo BestAttempt true true true true.
Definition ex_items : list atom :=
  [mkAtom (Fourcc (0xA9 :: $"nam")) [AUtf8 ($"Title"); AUtf8 ($"Second")];
   mkAtom (Freeform ($"com.apple.iTunes") ($"LABEL")) [AUtf8 ($"X")];
   mkAtom (Fourcc ($"trkn")) [AUnknown 0 [0; 0; 0; 3; 0; 12; 0; 0]];
   mkAtom (Fourcc ($"cpil")) [ABool true];
   mkAtom (Fourcc ($"tmpo")) [ASigned (-5)];
   mkAtom (Fourcc ($"cnID")) [AUnsigned 70000];
   mkAtom (Fourcc ($"covr")) [APic (mkPic POther (Some Png) None [1; 2; 3])]].
Example C114_ex : build_ilst ex_items = Ok (sbox ($"ilst") (flat_map item_box ex_items)) /\ parse_ilst o_all (flat_map item_box ex_items) = Ok ex_items.
Proof. vm_compute. split; reflexivity. Qed.
(** Text of the UTF-16 type is written as UTF-8 *)
Theorem C114_utf16_refuted : exists l b, build_ilst l = Ok (sbox ($"ilst") b) /\ l = [mkAtom (Fourcc (0xA9 :: $"nam")) [AUtf16 ($"ab")]] /\
  parse_ilst o_all b = Ok [mkAtom (Fourcc (0xA9 :: $"nam")) [AUtf16 [0x6162]]].
Proof. eexists _, (sbox (0xA9 :: $"nam") (dbox (2, $"ab"))). split; [|split; [reflexivity|]]; vm_compute; reflexivity. Qed.
(** Empty values are lost, and a flag under another name becomes a number *)
Theorem C114_empty_refuted : forall f, box_id f -> f <> $"----" -> ~ In f SPECIAL -> forall o,
  build_ilst [mkAtom (Fourcc f) [AUtf8 []]] = Ok (sbox ($"ilst") (sbox f (dbox (1, [])))) /\ parse_ilst o (sbox f (dbox (1, []))) = Ok [].
Proof.
  intros f HF HD HS o. split.
  - pose proof HF as [L _]. unfold build_ilst. cbn [write_items]. unfold write_item. cbn [at_data at_ident write_values write_value ident_content].
    change (write_data DT_UTF8 (utf8_enc [])) with (Ok (E := mp4_error) (dbox (1, []))). cbn [bind]. rewrite app_nil_r. cbn [app].
    unfold atom_bytes. cbv zeta. change (lenN (dbox (1, []))) with 16. change (U32_MAX <? 8 + 16) with false. cbn [bind]. rewrite app_nil_r.
    rewrite !lenN_app, L. change (lenN (dbox (1, []))) with 16. change (lenN (be_enc 4 (8 + 16))) with 4. change (U32_MAX <? 8 + (4 + (4 + 16))) with false. cbn [bind].
    unfold sbox at 1 2. rewrite !lenN_app, L. reflexivity.
  - unfold parse_ilst. set (c := sbox f (dbox (1, []))). assert (LC : lenN c = 24) by (unfold c; rewrite lenN_sbox by apply HF; reflexivity).
    assert (IN : inside c (atom_reader c) (item_box (mkAtom (Fourcc f) [AUtf8 []]) ++ [])).
    { unfold item_box. cbn [at_ident at_data map flat_map]. rewrite !app_nil_r. change (coded (AUtf8 [])) with (1, @nil N). apply inside_start. }
    assert (IO : ident_ok (at_ident (mkAtom (Fourcc f) [AUtf8 []]))) by (split; auto).
    assert (SZ : lenN (item_box (mkAtom (Fourcc f) [AUtf8 []])) < 2 ^ 32).
    { unfold item_box. cbn [at_ident at_data map flat_map]. rewrite app_nil_r. rewrite lenN_sbox by apply HF. reflexivity. }
    destruct (next_item c (atom_reader c) (mo_mode o) _ [] IN IO SZ) as (r' & E & HI' & HA & HE).
    destruct (length c) as [|n] eqn:LN; [unfold lenN in LC; rewrite LN in LC; discriminate|].
    cbn [ilst_loop]. rewrite E. cbn [a_ident a_ext a_len at_ident].
    assert (NS : forall g, In g SPECIAL -> is_fourcc g (Fourcc f) = false).
    { intros g G. apply is_fourcc_neq. intros ->. auto. }
    rewrite !NS by (cbn [In SPECIAL FLAGS app]; tauto). cbn [orb].
    assert (G : existsb (fun g => is_fourcc g (Fourcc f)) FLAG_ATOMS = false) by (unfold FLAG_ATOMS; cbn [existsb]; rewrite !NS by (cbn [In SPECIAL FLAGS app]; tauto); reflexivity).
    rewrite G. unfold parse_data.
    unfold vals in HI'. cbn [at_data map flat_map] in HI'.
    rewrite (parse_data_inner_boxes c (mo_mode o) _ r' [coded (AUtf8 [])] []); auto.
    + cbn [filter nonempty_value coded snd utf8_enc bind]. cbn [flat_map]. 
      match goal with |- context [adv ?k r'] => replace (adv k r') with (adv (lenN (vals (mkAtom (Fourcc f) [AUtf8 []]))) r') by reflexivity end.
      rewrite HA. assert (IE : inside c (adv (lenN (item_box (mkAtom (Fourcc f) [AUtf8 []]))) (atom_reader c)) []) by (eapply inside_adv; eauto).
      rewrite inside_end by exact IE. reflexivity.
    + constructor; [|constructor]. split; reflexivity.
Qed.
Example C114_empty_ex : parse_ilst o_all (sbox (0xA9 :: $"nam") (dbox (1, []))) = Ok [].
Proof. vm_compute. reflexivity. Qed.
Theorem C114_bool_refuted : exists l b, build_ilst l = Ok (sbox ($"ilst") b) /\ l = [mkAtom (Fourcc ($"rtng")) [ABool true]] /\
  parse_ilst o_all b = Ok [mkAtom (Fourcc ($"rtng")) [ASigned 1]].
Proof. eexists _, (sbox ($"rtng") (dbox (21, [1]))). split; [|split; [reflexivity|]]; vm_compute; reflexivity. Qed.
Print Assumptions C114_bool_refuted.

(** * C115: numbers. The value stored in one to four bytes, big-endian, two's complement if signed *)
Theorem C115_unsigned : forall k n, (1 <= k <= 4)%nat -> n < 256 ^ N.of_nat k -> interpret DT_UNSIGNED (be_enc k n) = Ok (AUnsigned n).
Proof.
  intros k n HK HN. change (interpret DT_UNSIGNED (be_enc k n)) with (let? n := parse_uint4 (be_enc k n) in Ok (AUnsigned n)). unfold parse_uint4.
  rewrite be_enc_len. replace ((1 <=? N.of_nat k) && (N.of_nat k <=? 4)) with true by lia. rewrite be_dec_enc by exact HN. reflexivity.
Qed.
Theorem C115_signed : forall k z, (2 <= k <= 4)%nat -> (- 2 ^ (8 * Z.of_nat k - 1) <= z < 2 ^ (8 * Z.of_nat k - 1))%Z ->
  interpret DT_SIGNED (be_enc k (Z.to_N (z mod 2 ^ (8 * Z.of_nat k)))) = Ok (ASigned z).
Proof.
  intros k z HK HZ. assert (C : (k = 2 \/ k = 3 \/ k = 4)%nat) by lia.
  assert (M : forall b, (0 < b)%Z -> (- (b / 2) <= z < b / 2)%Z -> (b mod 2 = 0)%Z -> (z mod b = if (z <? 0)%Z then z + b else z)%Z).
  { intros b B R E. destruct (Z.ltb_spec z 0); [symmetry; apply Z.mod_unique with (q := (-1)%Z); lia|apply Z.mod_small; lia]. }
  destruct C as [-> |[-> | ->]].
  - change (2 ^ (8 * Z.of_nat 2 - 1))%Z with 32768%Z in HZ. change (2 ^ (8 * Z.of_nat 2))%Z with 65536%Z. rewrite M by (try reflexivity; lia).
    change ((let? z := parse_int4 (be_enc 2 (Z.to_N (if (z <? 0)%Z then (z + 65536)%Z else z))) in Ok (ASigned z)) = Ok (E := mp4_error) (ASigned z)).
    unfold parse_int4. rewrite be_enc_len. change (N.of_nat 2 =? 1) with false. change (N.of_nat 2 =? 2) with true. cbv iota.
    rewrite be_dec_enc by (change (256 ^ N.of_nat 2) with 65536; destruct (Z.ltb_spec z 0); lia).
    unfold to_signed. change (2 ^ (16 - 1)) with 32768. change (2 ^ 16) with 65536. cbn [bind]. do 2 f_equal. destruct (Z.ltb_spec z 0); destruct (N.ltb_spec (Z.to_N (z + 65536)) 32768); destruct (N.ltb_spec (Z.to_N z) 32768); lia.
  - change (2 ^ (8 * Z.of_nat 3 - 1))%Z with 8388608%Z in HZ. change (2 ^ (8 * Z.of_nat 3))%Z with 16777216%Z. rewrite M by (try reflexivity; lia).
    change ((let? z := parse_int4 (be_enc 3 (Z.to_N (if (z <? 0)%Z then (z + 16777216)%Z else z))) in Ok (ASigned z)) = Ok (E := mp4_error) (ASigned z)).
    unfold parse_int4. rewrite be_enc_len. change (N.of_nat 3 =? 1) with false. change (N.of_nat 3 =? 2) with false. change (N.of_nat 3 =? 3) with true. cbv iota.
    rewrite be_dec_enc by (change (256 ^ N.of_nat 3) with 16777216; destruct (Z.ltb_spec z 0); lia).
    unfold to_signed. change (2 ^ (24 - 1)) with 8388608. change (2 ^ 24) with 16777216. cbn [bind]. do 2 f_equal. destruct (Z.ltb_spec z 0); destruct (N.ltb_spec (Z.to_N (z + 16777216)) 8388608); destruct (N.ltb_spec (Z.to_N z) 8388608); lia.
  - change (2 ^ (8 * Z.of_nat 4 - 1))%Z with 2147483648%Z in HZ. change (2 ^ (8 * Z.of_nat 4))%Z with 4294967296%Z. rewrite M by (try reflexivity; lia).
    change ((let? z := parse_int4 (be_enc 4 (Z.to_N (if (z <? 0)%Z then (z + 4294967296)%Z else z))) in Ok (ASigned z)) = Ok (E := mp4_error) (ASigned z)).
    unfold parse_int4. rewrite be_enc_len. change (N.of_nat 4 =? 1) with false. change (N.of_nat 4 =? 2) with false. change (N.of_nat 4 =? 3) with false. change (N.of_nat 4 =? 4) with true. cbv iota.
    rewrite be_dec_enc by (change (256 ^ N.of_nat 4) with 4294967296; destruct (Z.ltb_spec z 0); lia).
    unfold to_signed. change (2 ^ (32 - 1)) with 2147483648. change (2 ^ 32) with 4294967296. cbn [bind]. do 2 f_equal. destruct (Z.ltb_spec z 0); destruct (N.ltb_spec (Z.to_N (z + 4294967296)) 2147483648); destruct (N.ltb_spec (Z.to_N z) 2147483648); lia.
Qed.
Print Assumptions C115_signed.
Example C115_ex : interpret DT_SIGNED [255; 251] = Ok (ASigned (-5)) /\ interpret DT_UNSIGNED [1; 0; 0] = Ok (AUnsigned 65536).
Proof. vm_compute. split; reflexivity. Qed.
(** One byte is not read as two's complement: no single byte is negative. *)
Theorem C115_one_byte_refuted : forall z, (-128 <= z < 0)%Z ->
  interpret DT_SIGNED (be_enc 1 (Z.to_N (z mod 2 ^ 8))) = Ok (ASigned (z + 256)).
Proof.
  intros z HZ. replace (z mod 2 ^ 8)%Z with (z + 256)%Z by (apply Z.mod_unique with (q := (-1)%Z); lia).
  change ((let? z := parse_int4 (be_enc 1 (Z.to_N (z + 256))) in Ok (ASigned z)) = Ok (E := mp4_error) (ASigned (z + 256))).
  unfold parse_int4. rewrite be_enc_len. change (N.of_nat 1 =? 1) with true. cbv iota. rewrite be_dec_enc by (change (256 ^ N.of_nat 1) with 256; lia). cbn [bind]. do 2 f_equal. lia.
Qed.
Print Assumptions C115_one_byte_refuted.

