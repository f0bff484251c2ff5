(** Property theorems for ratings (C21, C22, C50). *)
From Verif Require Import BaseLemmas StrLemmas PopmModel.

(** The built-in providers. *)
Inductive builtin : provider -> Prop :=
| b_default : builtin DefaultProvider
| b_musicbee : builtin MusicBee
| b_wmp : builtin WindowsMediaPlayer
| b_picard : builtin Picard.

(** C21 *)
Theorem C21_star_ratings : forall p tt, builtin p ->
  (forall r, convert_raw p tt (rate p tt r) = r /\ rate p tt r <= 255) /\
  (forall r r', stars r < stars r' -> rate p tt r < rate p tt r') /\
  (forall v v', v <= v' -> stars (convert_raw p tt v) <= stars (convert_raw p tt v')).
Proof.
  intros p tt B. split; [|split].
  - intros r. destruct B, tt, r; vm_compute; split; auto; discriminate.
  - intros r r'. destruct B, tt, r, r'; vm_compute; auto; discriminate.
  - intros v v' L. destruct B, tt; cbn [convert_raw DefaultProvider MusicBee WindowsMediaPlayer Picard musicbee_convert picard_convert];
    repeat match goal with |- context [?a <=? ?b] => let E := fresh in destruct (a <=? b) eqn:E end; cbn [stars]; lia.
Qed.
Print Assumptions C21_star_ratings.
Example C21_ex : rate Picard Id3v2 Three = 153 /\ convert_raw MusicBee Id3v2 100 = Three /\ rate WindowsMediaPlayer Ape Four = 196.
Proof. vm_compute. auto. Qed.

Lemma split_once_app : forall c a b, ~ In c a -> split_once c (a ++ c :: b) = Some (a, b).
Proof.
  induction a; intros; cbn [app split_once]. now rewrite N.eqb_refl.
  replace (a =? c) with false. rewrite IHa; auto. intro; apply H; now right.
  symmetry. apply N.eqb_neq. intros ->. apply H. now left.
Qed.

Lemma dec_no_bar : forall n, ~ In 124 (to_dec n).
Proof. intros. now apply to_dec_no. Qed.

Lemma display_split : forall p, ~ In 124 (match pm_email p with Some e => e | None => [] end) ->
  splitn 3 124 (popm_display p) =
  [match pm_email p with Some e => e | None => [] end; to_dec (stars (pm_rating p)); to_dec (pm_count p)].
Proof.
  intros. unfold popm_display. cbn [splitn]. cbn [app]. rewrite split_once_app by auto.
  rewrite split_once_app by apply dec_no_bar. reflexivity.
Qed.

(** C22: the exact result for every email without '|'. *)
Theorem C22_text_partial : forall custom p, pm_count p <= U64_MAX ->
  ~ In 124 (match pm_email p with Some e => e | None => [] end) ->
  supports_email custom (match pm_email p with Some e => e | None => [] end) = true ->
  exists q, popm_from_str custom (popm_display p) = Some q /\
    pm_email q = nonempty (match pm_email p with Some e => e | None => [] end) /\
    pm_rating q = pm_rating p /\ pm_count q = pm_count p.
Proof.
  intros custom p C NB S. unfold popm_from_str. rewrite display_split by auto.
  rewrite !parse_uint_to_dec; auto. 2: { destruct (pm_rating p); vm_compute; discriminate. }
  remember (match pm_email p with Some e => e | None => [] end) as em.
  assert (D : exists q, dispatch custom em = Some q).
  { unfold dispatch. rewrite S. destruct (list_eqb em WMP_EMAIL), (list_eqb em MUSICBEE_EMAIL), (list_eqb em PICARD_EMAIL); eauto. }
  destruct D as [q D]. rewrite D.
  destruct (pm_rating p); cbn [stars N.eqb Pos.eqb]; eexists; (split; [reflexivity|]); cbn; auto.
Qed.
Print Assumptions C22_text_partial.
Example C22_ex : popm_display (popm_custom DefaultProvider ($"a@b") Four 17) = $"a@b|4|17" /\
  (exists q, popm_from_str DefaultProvider ($"a@b|4|17") = Some q /\ pm_email q = Some ($"a@b")).
Proof. split. vm_compute. reflexivity. eexists. split. vm_compute. reflexivity. reflexivity. Qed.
Theorem C22_text_refuted : ~ (forall p, pm_count p <= U64_MAX ->
  exists q, popm_from_str DefaultProvider (popm_display p) = Some q /\
    pm_email q = pm_email p /\ pm_rating q = pm_rating p /\ pm_count q = pm_count p).
Proof.
  intro H. destruct (H (popm_custom DefaultProvider ($"a|b") Four 17)) as (q & E & _). vm_compute. discriminate.
  vm_compute in E. discriminate.
Qed.
Print Assumptions C22_text_refuted.
(** An empty email becomes an absent one. *)
Theorem C22_empty_email_refuted : exists p q, popm_from_str DefaultProvider (popm_display p) = Some q /\ pm_count p <= U64_MAX /\
  pm_email q <> pm_email p.
Proof.
  eexists (mkPopm (Some []) DefaultProvider One 1), _. split. vm_compute. reflexivity. split. vm_compute. discriminate. vm_compute. discriminate.
Qed.
Print Assumptions C22_empty_email_refuted.

(** C50: a rating stored in any format and read back has the same number of stars. *)
Definition lawful (p : provider) : Prop := forall tt r, convert_raw p tt (rate p tt r) = r.
Theorem C50_stored_rating : forall custom s q tt, lawful custom -> popm_from_str custom s = Some q ->
  exists q', popm_mapped custom (match pm_email q with Some e => e | None => [] end) tt (mapped_value q tt) (pm_count q) = Some q' /\
    pm_rating q' = pm_rating q /\ pm_email q' = pm_email q /\ pm_count q' = pm_count q.
Proof.
  intros custom s q tt L H. unfold popm_from_str in H.
  destruct (splitn 3 124 s) as [|em [|r [|c [|]]]]; try discriminate.
  destruct (parse_uint U64_MAX c) as [count|]; [|discriminate]. destruct (parse_uint I32_MAX r) as [v|]; [|discriminate].
  match type of H with match ?x with _ => _ end = _ => destruct x as [st|]; [|discriminate] end.
  destruct (dispatch custom em) as [p|] eqn:D; [|discriminate]. injection H as <-. cbn [pm_email pm_count pm_rating mapped_value pm_provider].
  assert (E : match nonempty em with Some e => e | None => [] end = em) by (destruct em; reflexivity). rewrite E.
  unfold popm_mapped. rewrite D. eexists. split. reflexivity. cbn. repeat split; auto.
  unfold mapped_value. cbn [pm_provider pm_rating].
  assert (LP : lawful p).
  { unfold dispatch in D. destruct (list_eqb em WMP_EMAIL). { injection D as <-. intros t x. apply (C21_star_ratings _ t b_wmp). }
    destruct (list_eqb em MUSICBEE_EMAIL). { injection D as <-. intros t x. apply (C21_star_ratings _ t b_musicbee). }
    destruct (list_eqb em PICARD_EMAIL). { injection D as <-. intros t x. apply (C21_star_ratings _ t b_picard). }
    destruct (supports_email custom em); [|discriminate]. now injection D as <-. }
  apply LP.
Qed.
Print Assumptions C50_stored_rating.
Example C50_ex : lawful DefaultProvider /\ (exists q, popm_from_str DefaultProvider ($"MusicBee|3|5") = Some q /\ mapped_value q Id3v2 = 128).
Proof. split. intros t x. apply (C21_star_ratings _ t b_default). eexists. split. vm_compute. reflexivity. reflexivity. Qed.
