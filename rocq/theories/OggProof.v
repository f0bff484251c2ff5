From Verif Require Import BaseLemmas OggModel OggSpec OggCrcProof.

Definition fields (p : page) : page_fields :=
  mkFields (pg_flag p) (pg_abgp p) (pg_serial p) (pg_seq p) (pg_cksum p) (pg_segs p) (pg_content p).
Definition page_ok (p : page) : Prop := fields_ok (fields p).

Lemma header_read_ok : forall pos p rest, page_ok p ->
  header_read pos (as_bytes p ++ rest) =
    Ok (mkPage pos (pg_flag p) (pg_abgp p) (pg_serial p) (pg_seq p) (pg_segs p) (pg_cksum p) [] 0,
        pg_content p ++ rest).
Proof.
  intros pos p rest (H1 & H2 & H3 & H4 & H5 & H6 & H7). cbn [fields f_flag f_abgp f_serial f_seq f_cksum f_segs f_content] in *.
  unfold header_read, as_bytes. rewrite <- !app_assoc.
  rewrite read_exact_app by reflexivity. cbn [io bind].
  rewrite list_eqb_refl. cbn [negb].
  cbn [app read_u8 io bind]. change (0 =? 0) with true. cbn [negb].
  rewrite (read_le_app 8) by (auto; exact H2). cbn [io bind].
  rewrite (read_le_app 4) by (auto; exact H3). cbn [io bind].
  rewrite (read_le_app 4) by (auto; exact H4). cbn [io bind].
  rewrite (read_le_app 4) by (auto; exact H5). cbn [io bind].
  cbn [app read_u8 io bind].
  rewrite N.mod_small by lia.
  destruct (N.ltb_spec (lenN (pg_segs p)) 1); [lia|].
  rewrite read_exact_app by reflexivity. reflexivity.
Qed.

Lemma page_read_ok : forall pos p rest, page_ok p ->
  page_read pos (as_bytes p ++ rest) =
    Ok (mkPage pos (pg_flag p) (pg_abgp p) (pg_serial p) (pg_seq p) (pg_segs p) (pg_cksum p)
          (pg_content p) (pos + lenN (as_bytes p)), rest).
Proof.
  intros. unfold page_read. rewrite header_read_ok by auto. cbn [bind pg_segs pg_flag pg_abgp pg_serial pg_seq pg_cksum pg_start].
  destruct H as (_ & _ & _ & _ & _ & _ & H7). cbn in H7. unfold content_size.
  rewrite read_exact_app by auto. cbn [io bind]. do 3 f_equal. rewrite !lenN_app. lia.
Qed.

Lemma le_dec_bound' : forall l n m, bytes_ok l -> lenN l = n -> m = 256 ^ n -> le_dec l < m.
Proof. intros; subst; now apply le_dec_bound. Qed.

Lemma le_enc_dec' : forall l n, bytes_ok l -> lenN l = N.of_nat n -> le_enc n (le_dec l) = l.
Proof. intros. replace n with (length l). now apply le_enc_dec. unfold lenN in H0. lia. Qed.

Lemma io_ok : forall A (o : option A) x, io o = Ok x -> o = Some x.
Proof. destruct o; cbn; intros; congruence. Qed.
Lemma read_u8_spec : forall r b r', read_u8 r = Some (b, r') -> r = b :: r'.
Proof. destruct r; cbn; intros; inversion H; auto. Qed.
Lemma read_le_spec : forall n r v r', read_le n r = Some (v, r') -> exists b, r = b ++ r' /\ lenN b = n /\ v = le_dec b.
Proof.
  unfold read_le; intros. destruct (read_exact n r) as [[b r1]|] eqn:E; inversion H; subst.
  apply read_exact_spec in E as [E1 E2]. eauto.
Qed.

Ltac bind_inv H a r E :=
  match type of H with
  | bind ?x _ = Ok _ => destruct x as [[a r]| |] eqn:E; cbn [bind] in H; try discriminate H
  end.

Lemma page_read_canonical : forall pos r p r', bytes_ok r -> page_read pos r = Ok (p, r') ->
  r = as_bytes p ++ r' /\ page_ok p /\ pg_start p = pos /\ pg_end p = pos + lenN (as_bytes p).
Proof.
  intros pos r p r' Hok H. unfold page_read in H. bind_inv H h rh E. bind_inv H content rc Ec.
  inversion H; subst; clear H.
  unfold header_read in E.
  bind_inv E sgn r1 E1. destruct (list_eqb sgn OggS) eqn:Es; cbn [negb] in E; [|discriminate].
  apply list_eqb_eq in Es. subst sgn.
  bind_inv E ver r2 E2. destruct (N.eqb_spec ver 0) as [->|]; cbn [negb] in E; [|discriminate].
  bind_inv E flag r3 E3. bind_inv E abgp r4 E4. bind_inv E serial r5 E5. bind_inv E sq r6 E6.
  bind_inv E ck r7 E7. bind_inv E sg r8 E8.
  destruct (N.ltb_spec sg 1); [discriminate|].
  bind_inv E table r9 E9. inversion E; subst; clear E.
  cbn [pg_start pg_flag pg_abgp pg_serial pg_seq pg_segs pg_cksum pg_content pg_end] in *.
  apply io_ok in Ec, E1, E2, E3, E4, E5, E6, E7, E8, E9.
  apply read_exact_spec in Ec as [Ec Lc], E1 as [E1 L1], E9 as [E9 L9].
  apply read_u8_spec in E2, E3, E8.
  apply read_le_spec in E4 as (b4 & E4 & L4 & ->), E5 as (b5 & E5 & L5 & ->), E6 as (b6 & E6 & L6 & ->), E7 as (b7 & E7 & L7 & ->).
  subst.
  repeat match goal with
  | H : bytes_ok (_ ++ _) |- _ => apply Forall_app in H as [? ?]
  | H : bytes_ok (_ :: _) |- _ => inversion H; subst; clear H
  end.
  unfold byte_ok in *.
  match goal with |- context [mkPage pos flag ?a ?b ?c table ?d content ?e] =>
    set (P := mkPage pos flag a b c table d content e) end.
  assert (Hb : as_bytes P = OggS ++ 0 :: flag :: b4 ++ b5 ++ b6 ++ b7 ++ lenN table :: table ++ content).
  { unfold as_bytes, P; cbn [pg_flag pg_abgp pg_serial pg_seq pg_cksum pg_segs pg_content].
    rewrite !le_enc_dec' by auto. rewrite N.mod_small by auto. reflexivity. }
  rewrite Hb.
  repeat split; cbn [P fields f_flag f_abgp f_serial f_seq f_cksum f_segs f_content
    pg_start pg_flag pg_abgp pg_serial pg_seq pg_segs pg_cksum pg_content pg_end]; auto; try lia.
  - repeat (rewrite <- ?app_assoc; cbn [app]). reflexivity.
  - eapply le_dec_bound'; eauto.
  - eapply le_dec_bound'; eauto.
  - eapply le_dec_bound'; eauto.
  - eapply le_dec_bound'; eauto.
  - repeat (rewrite ?lenN_app, ?lenN_cons). lia.
Qed.
