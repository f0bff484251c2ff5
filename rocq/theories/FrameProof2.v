(** Frames and lists of frames: written and read back. *)
From Verif Require Import BaseLemmas SynchProof TextProof.
From Verif Require Export FrameReadModel FrameWriteModel FrameSpec.
From Verif Require Import FrameProof1.

(** *** Induction through the frames inside frames *)
Definition children (f : frame) : list frame := match f with FChap _ _ _ _ l | FCtoc _ _ _ _ _ l => l | _ => [] end.
Lemma frame_rect' : forall P : frame -> Prop, (forall f, Forall P (children f) -> P f) -> forall f, P f.
Proof.
  intros P H. fix IH 1. intro f. apply H. destruct f; cbn [children]; try constructor.
  - induction children0 as [|x l IHl]; constructor; auto.
  - induction children0 as [|x l IHl]; constructor; auto.
Qed.

(** *** Inserting frames that are not there *)
Definition named (f : frame) : Prop := exists s, f_id f = Valid s /\ kind_of_name s = kind_of f.
Lemma id_eqb_eq : forall a b, id_eqb a b = true <-> a = b.
Proof. intros. unfold id_eqb. destruct (frame_id_dec a b); split; congruence. Qed.
Lemma yes_true : forall P (d : {P} + {~ P}), yes d = true <-> P.
Proof. intros. unfold yes. destruct d; split; intros; auto; discriminate. Qed.
Lemma leb_eq : forall a b, list_eqb a b = true <-> a = b.
Proof. intros. split. apply list_eqb_eq. intros ->. apply list_eqb_refl. Qed.
Lemma frame_eqb_spec : forall f g,
  in_names (f_name f) ONE_PER_TAG = false -> in_names (f_name g) ONE_PER_TAG = false ->
  (frame_eqb f g = true <-> identity_of f = identity_of g).
Proof.
  intros f g Hf Hg. unfold identity_of. rewrite Hf, Hg.
  destruct f, g; cbn [frame_eqb]; rewrite ?andb_true_iff, ?yes_true, ?leb_eq, ?id_eqb_eq;
  (split; [intros; try discriminate; repeat match goal with H : _ /\ _ |- _ => destruct H end; congruence
          |intros X; try discriminate X; injection X; intros; subst; auto]).
Qed.
Lemma single_kinds : forall s, in_names s ONE_PER_TAG = true ->
  kind_of_name s = KBin \/ kind_of_name s = KEtco \/ kind_of_name s = KOwne.
Proof.
  intros. unfold in_names in H. apply existsb_exists in H as (x & I & E). apply list_eqb_eq in E. subst x.
  unfold ONE_PER_TAG in I. cbn [In] in I. repeat destruct I as [<- | I]; auto. contradiction.
Qed.
Lemma eqb_single : forall f g, named f -> named g -> frame_eqb f g = true ->
  in_names (f_name f) ONE_PER_TAG = true -> in_names (f_name g) ONE_PER_TAG = true.
Proof.
  intros f g (s & Hi & Hk) (s' & Hi' & Hk') E S. unfold f_name in *. rewrite Hi in S. cbn [id_str] in S. apply single_kinds in S as K.
  rewrite Hk in K. assert (f_header f = f_header g).
  { destruct f; cbn [kind_of] in K; try (exfalso; destruct K as [K|[K|K]]; discriminate K);
    destruct g; cbn [frame_eqb] in E; try discriminate E; rewrite ?andb_true_iff, ?yes_true in E; cbn [f_header]; tauto. }
  unfold f_id in *. rewrite <- H, Hi. exact S.
Qed.
Lemma take_first_none : forall p l, Forall (fun f => p f = false) l -> take_first p l = (None, l).
Proof. induction l; intros; auto. apply Forall_cons_iff in H as [H1 H2]. cbn [take_first]. rewrite H1, IHl; auto. Qed.
Lemma partition_none : forall id l kept, Forall (fun f => f_id f <> id) l -> fl_partition id kept l = kept ++ l.
Proof.
  induction l; intros; cbn [fl_partition]. now rewrite app_nil_r. apply Forall_cons_iff in H as [H1 H2].
  destruct (id_eqb (f_id a) id) eqn:E. apply id_eqb_eq in E. congruence. rewrite IHl by auto. now rewrite <- app_assoc.
Qed.
Lemma filter_none : forall A (p : A -> bool) l, Forall (fun f => p f = false) l -> filter p l = [].
Proof. induction l; intros; auto. apply Forall_cons_iff in H as [H1 H2]. cbn [filter]. rewrite H1. auto. Qed.
Lemma insert_new : forall f l, named f -> Forall named l -> ~ In (identity_of f) (map identity_of l) -> fl_insert f l = (l ++ [f], None).
Proof.
  intros f l Nf Nl NI. unfold fl_insert. destruct (in_names (f_name f) ONE_PER_TAG) eqn:S.
  - assert (X : Forall (fun g => f_id g <> f_id f) l).
    { rewrite Forall_forall in *. intros g I E. apply NI. apply in_map_iff. exists g. split; auto.
      unfold identity_of. unfold f_name in *. rewrite E, S. reflexivity. }
    unfold fl_remove, fl_removed. rewrite partition_none by auto. rewrite filter_none; auto.
    eapply Forall_impl; [|exact X]. cbv beta. intros g Hg. destruct (id_eqb (f_id g) (f_id f)) eqn:E; auto. apply id_eqb_eq in E. congruence.
  - rewrite take_first_none; auto. rewrite Forall_forall in *. intros g I. destruct (frame_eqb g f) eqn:E; auto. exfalso. apply NI.
    apply in_map_iff. exists g. split; auto. apply frame_eqb_spec; auto.
    destruct (in_names (f_name g) ONE_PER_TAG) eqn:Sg; auto. rewrite (eqb_single g f) in S; auto.
Qed.
Lemma add_new : forall f l, named f -> Forall named l -> ~ In (identity_of f) (map identity_of l) -> add_read f l = l ++ [f].
Proof. intros. unfold add_read. now rewrite insert_new. Qed.
Lemma restored_header : forall v23 f, f_header (restored v23 f) = f_header f.
Proof. destruct f; reflexivity. Qed.
Lemma restored_kind : forall v23 f, kind_of (restored v23 f) = kind_of f.
Proof. destruct f; reflexivity. Qed.
Lemma restored_named : forall v23 f, named f -> named (restored v23 f).
Proof. intros v23 f (s & A & B). exists s. unfold f_id. rewrite restored_header, restored_kind. auto. Qed.

(** *** Headers *)
Definition wv (w : wopts) : id3v2_version := if w_v23 w then V3 else V4.
Definition flag_bytes (w : wopts) (f : frame_flags) : N := if w_v23 w then flags23 f else flags24 f.
(** The flags before the bytes that follow the header were read. *)
Definition flags_read (w : wopts) (f : frame_flags) : frame_flags :=
  mkFF (ff_tag_alter f) (ff_file_alter f) (ff_read_only f) (then_some (is_some (ff_group f)) 0) (ff_compression f)
    (then_some (is_some (ff_encryption f)) 0) (if w_v23 w then false else ff_unsync f)
    (if w_v23 w then None else then_some (is_some (ff_length f)) 0).
Lemma flags_rt : forall w f, flag_bytes w f < 2 ^ 16 /\
  (if w_v23 w then parse_flags23 else parse_flags24) (flag_bytes w f) = flags_read w f.
Proof.
  intros w [a b c [g|] d [e|] u [l|]]; unfold flag_bytes, flags_read; destruct (w_v23 w);
  destruct a, b, c, d, u; vm_compute; auto.
Qed.
Lemma name_chars : forall s, valid_name s -> Forall (fun c => 0 < c < 128) s.
Proof. intros s [_ F]. eapply Forall_impl; [|exact F]. cbv beta. intros. lia. Qed.
Lemma name_ascii : forall s, valid_name s -> Forall (fun c => c < 128) s.
Proof. intros. eapply Forall_impl; [|now apply name_chars]. cbv beta. intros. lia. Qed.
Lemma name_new : forall s, valid_name s -> frame_id_new s = Some (Valid s).
Proof.
  intros s [L F]. unfold frame_id_new.
  assert (forallb (fun c => is_upper c || is_digit c) s = true) as ->.
  { apply forallb_forall. rewrite Forall_forall in F. intros x I. specialize (F x I). unfold is_upper, is_digit. lia. }
  unfold lenN. rewrite L. reflexivity.
Qed.
Definition old_name (s : str) : Prop := s = $"TORY" \/ s = $"TYER" \/ s = $"IPLS".
Lemma upgrade_none : forall s, ~ old_name s -> upgrade_v3 s = None.
Proof.
  intros. unfold upgrade_v3, assoc, V3_KEYS, old_name in *. cbn [find fst].
  repeat match goal with |- context [list_eqb ?a s] => let E := fresh "E" in destruct (list_eqb a s) eqn:E; [apply list_eqb_eq in E; subst s; tauto|] end. reflexivity.
Qed.
Definition up_name (w : wopts) (implicit : bool) (s : str) : str := if w_v23 w && implicit then upgraded (upgrade_v3 s) s else s.
Lemma up_valid : forall w im s, valid_name s -> valid_name (up_name w im s).
Proof.
  intros w im s H. unfold up_name. destruct (w_v23 w && im); auto. destruct (upgrade_v3 s) as [v|] eqn:E; auto. cbn [upgraded].
  unfold upgrade_v3, assoc in E. destruct (find (fun p => list_eqb (fst p) s) V3_KEYS) as [[a b]|] eqn:F; [|discriminate]. injection E as ->.
  apply find_some in F as (I & _). unfold V3_KEYS in I. cbn [In] in I.
  repeat destruct I as [I|I]; try contradiction; injection I as _ <-; (split; [reflexivity|]); apply Forall_forall; intros x J; cbn in J;
  repeat destruct J as [<- | J]; try contradiction; lia.
Qed.
Lemma up_same : forall w im s, (w_v23 w = true -> im = true -> ~ old_name s) -> up_name w im s = s.
Proof. intros w im s H. unfold up_name. destruct (w_v23 w), im; auto. cbn [andb]. rewrite upgrade_none by auto. reflexivity. Qed.
Lemma header_up : forall w implicit s fl n rest, valid_name s -> n < 2 ^ 32 ->
  parse_header (is_v4 (wv w)) implicit ((utf8_enc s ++ be_enc 4 n ++ be_enc 2 (flag_bytes w fl)) ++ rest) =
  HOk (Valid (up_name w implicit s)) (flags_read w fl) (if is_v4 (wv w) then unsynch32 n else n) rest.
Proof.
  intros w im s fl n rest Hs Hn. pose proof (up_valid w im s Hs) as Hup. pose proof Hs as [L F]. rewrite utf8_ascii' by now apply name_ascii.
  assert (L4 : lenN s = 4) by (unfold lenN; rewrite L; reflexivity).
  unfold parse_header. rewrite read_exact_app by (rewrite !lenN_app, !be_enc_len, L4; reflexivity).
  destruct s as [|a [|b [|c [|d [|]]]]]; try discriminate L. pose proof (name_chars _ Hs) as C.
  set (name := [a; b; c; d]) in *.
  assert (N0 : nth 0 (name ++ be_enc 4 n ++ be_enc 2 (flag_bytes w fl)) 0 = a) by reflexivity.
  assert (N3 : nth 3 (name ++ be_enc 4 n ++ be_enc 2 (flag_bytes w fl)) 0 = d) by reflexivity.
  rewrite N0, N3.
  unfold name in C. rewrite !Forall_cons_iff in C. destruct C as (Ca & Cb & Cc & Cd & _).
  replace (a =? 0) with false by lia. replace (d =? 0) with false by lia. cbn [andb].
  replace (dropN 8 (name ++ be_enc 4 n ++ be_enc 2 (flag_bytes w fl))) with (be_enc 2 (flag_bytes w fl)).
  2: { rewrite app_assoc. rewrite dropN_app; auto. }
  rewrite takeN_app by exact L4. rewrite dropN_app by exact L4. rewrite takeN_app by (rewrite be_enc_len; reflexivity).
  destruct (flags_rt w fl) as (Fb & Fr). rewrite !be_dec_enc by first [exact Fb | exact Hn].
  assert (utf8_decode name = Ok name) as ->.
  { unfold utf8_decode. rewrite <- (utf8_ascii' name) at 1 by now apply name_ascii. rewrite utf8_dec_enc by now apply ascii_ok, name_ascii.
    rewrite trim_id; auto. eapply Forall_impl; [|now apply name_chars]. cbv beta. intros. lia. }
  rewrite <- Fr. unfold wv. unfold up_name in *. destruct (w_v23 w), im; cbn [is_v4 negb andb] in *;
  rewrite name_new by auto; reflexivity.
Qed.
Lemma header_rt : forall w implicit s fl n rest, valid_name s -> (w_v23 w = true -> implicit = true -> ~ old_name s) -> n < 2 ^ 32 ->
  parse_header (is_v4 (wv w)) implicit ((utf8_enc s ++ be_enc 4 n ++ be_enc 2 (flag_bytes w fl)) ++ rest) =
  HOk (Valid s) (flags_read w fl) (if is_v4 (wv w) then unsynch32 n else n) rest.
Proof. intros. rewrite header_up, up_same by auto. reflexivity. Qed.

(** *** One frame *)
Lemma extras_rt : forall w fl size value after, flags_ok fl ->
  (size = lenN value + match ff_group fl with Some _ => 1 | None => 0 end) ->
  read_extras (flags_read w fl) size (match ff_group fl with Some g => g :: value | None => value end ++ after) =
  Ok (fl, lenN value, value ++ after).
Proof.
  intros w [a b c g d e u l] size value after (Hc & He & Hu & Hl & _) ->. cbn [ff_group ff_compression ff_encryption ff_unsync ff_length] in *.
  subst. unfold flags_read, read_extras. cbn [ff_group ff_compression ff_encryption ff_unsync ff_length ff_tag_alter ff_file_alter ff_read_only is_some then_some bind].
  replace (if w_v23 w then false else false) with false by (destruct (w_v23 w); auto).
  replace (if w_v23 w then None else None) with (@None N) by (destruct (w_v23 w); auto).
  destruct g; cbn [is_some then_some ff_group ff_compression ff_encryption ff_unsync ff_length bind].
  - destruct (N.ltb_spec (lenN value + 1) 1); [lia|]. cbn [app read_u8 from_opt bind]. unfold set_group. cbn.
    repeat f_equal. apply N.add_sub.
  - cbn [orb]. now rewrite N.add_0_r.
Qed.
Lemma emit_len : forall w s fl value b, emit w s fl value = Ok b -> lenN value <= lenN b.
Proof.
  intros. unfold emit, encrypted_bytes in H.
  repeat match type of H with
  | match ?x with _ => _ end = _ => destruct x; try discriminate H
  | bind ?x _ = _ => let X := fresh "X" in destruct x eqn:X; cbn [bind] in H; try discriminate H
  end; injection H as <-; rewrite ?lenN_app, ?lenN_cons; lia.
Qed.
Lemma emit_up : forall w inflate kids o s fl value b f' after,
  valid_name s -> flags_ok fl -> (fo_cover o = true \/ up_name w (fo_implicit o) s <> $"APIC") ->
  emit w s fl value = Ok b -> value <> [] -> lenN value < 2 ^ 32 ->
  parse_content kids (Valid (up_name w (fo_implicit o) s)) fl (wv w) (fo_mode o) value = Ok (Some f', []) ->
  read_frame inflate kids (wv w) false o (b ++ after) = Ok (PNext f', after) /\ lenN b >= lenN value + 10 /\ hd 0 b <> 0.
Proof.
  intros w inflate kids o s fl value b f' after Hs Hf Hc E NE Hl P. pose proof Hf as (Fc & Fe & Fu & Fl & Fg).
  unfold emit in E. rewrite Fe in E. rewrite N.mod_small in E by exact Hl.
  set (size := lenN value + match ff_group fl with Some _ => 1 | None => 0 end).
  assert (exists n, b = (utf8_enc s ++ be_enc 4 n ++ be_enc 2 (flag_bytes w fl)) ++ (match ff_group fl with Some g => g :: value | None => value end) /\
            n < 2 ^ 32 /\ (if is_v4 (wv w) then unsynch32 n else n) = size) as (n & -> & Hn & Sz).
  { assert (X : forall h, size < 2 ^ 32 -> frame_header_bytes w s size fl = Ok h -> exists n, h = utf8_enc s ++ be_enc 4 n ++ be_enc 2 (flag_bytes w fl) /\
               n < 2 ^ 32 /\ (if is_v4 (wv w) then unsynch32 n else n) = size).
    { intros h Hz X. unfold frame_header_bytes, wv, flag_bytes in *. destruct (w_v23 w); cbn [bind is_v4] in *.
      - exists size. split; [congruence|]. auto.
      - destruct (synch32_correct size Hz) as (S1 & S2). destruct (N.ltb_spec size (2 ^ 28)).
        + destruct (S2 H) as (z & Ez & (Sb & _) & _ & Uz). rewrite Ez in X. cbn [as_ferr bind] in X. exists z. split; [congruence|]. auto.
        + apply S1 in H. rewrite H in X. discriminate. }
    subst size. unfold U32_MAX in *. change (2 ^ 32) with 4294967296 in *. destruct (ff_group fl) as [g|].
    - destruct (N.eqb_spec (lenN value) 4294967295); [discriminate|].
      destruct (frame_header_bytes w s (lenN value + 1) fl) as [h| |] eqn:Eh; cbn [bind] in E; try discriminate E.
      injection E as <-. destruct (X h) as (k & -> & K1 & K2); [lia|auto|]. exists k. auto.
    - rewrite N.add_0_r in *. destruct (frame_header_bytes w s (lenN value) fl) as [h| |] eqn:Eh; cbn [bind] in E; try discriminate E.
      injection E as <-. destruct (X h) as (k & -> & K1 & K2); [lia|auto|]. exists k. auto. }
  assert (Hv : 0 < lenN value) by (destruct value; [congruence|rewrite lenN_cons; lia]).
  split; [|split].
  - unfold read_frame. replace (is_v2 (wv w)) with false by (unfold wv; destruct (w_v23 w); reflexivity).
    rewrite <- app_assoc. rewrite header_up by auto. rewrite Sz. cbn [andb].
    replace (negb (fo_cover o) && id_eqb (Valid (up_name w (fo_implicit o) s)) (Valid $"APIC")) with false.
    2: { destruct Hc as [-> | Hc]; auto. destruct (id_eqb _ _) eqn:X; [apply id_eqb_eq in X; congruence|]. now rewrite andb_false_r. }
    destruct (N.eqb_spec size 0); [subst size; lia|].
    rewrite extras_rt by auto. cbn [bind]. destruct (N.eqb_spec (lenN value) 0); [lia|].
    rewrite Fc, Fe, Fu. cbn [is_some]. rewrite takeN_app, dropN_app by auto. rewrite P. reflexivity.
  - rewrite !lenN_app, !be_enc_len. rewrite utf8_ascii' by now apply name_ascii. destruct Hs as [Hs _].
    assert (lenN s = 4) as -> by (unfold lenN; rewrite Hs; reflexivity). destruct (ff_group fl); rewrite ?lenN_cons; lia.
  - rewrite utf8_ascii' by now apply name_ascii. pose proof (name_chars _ Hs) as C. destruct Hs as [Hs _].
    destruct s; [discriminate Hs|]. apply Forall_cons_iff in C as [C _]. cbn [app hd]. lia.
Qed.

Lemma emit_read : forall w inflate kids o s fl value b f' after,
  valid_name s -> (w_v23 w = true -> fo_implicit o = true -> ~ old_name s) -> flags_ok fl -> (fo_cover o = true \/ s <> $"APIC") ->
  emit w s fl value = Ok b -> value <> [] -> lenN value < 2 ^ 32 ->
  parse_content kids (Valid s) fl (wv w) (fo_mode o) value = Ok (Some f', []) ->
  read_frame inflate kids (wv w) false o (b ++ after) = Ok (PNext f', after) /\ lenN b >= lenN value + 10 /\ hd 0 b <> 0.
Proof.
  intros. apply (emit_up w inflate kids o s fl value); auto; rewrite up_same; auto.
Qed.

Lemma conv_same : forall s f, f_id f = Valid s -> ~ In s RENAMED -> conv23 f = CSame /\ in_names (f_name f) V4_ONLY = false.
Proof.
  intros s f Hi NI. unfold conv23, f_name. rewrite Hi. cbn [id_str].
  assert (X : forall l, (forall x, In x l -> In x RENAMED) -> in_names s l = false).
  { intros l H. destruct (in_names s l) eqn:E; auto. apply existsb_exists in E as (x & I & E). apply list_eqb_eq in E. subst x. exfalso. auto. }
  assert (Y : forall x, In x RENAMED -> list_eqb s x = false). { intros x I. apply list_eqb_neq. intros ->. auto. }
  rewrite (Y ($"TCON")) by (unfold RENAMED; cbn [In]; tauto).
  rewrite !X; auto; unfold RENAMED, V4_ONLY; cbn [In]; intros; tauto.
Qed.

(** *** All frames *)
Section Whole.
Variable w : wopts.
Variable inflate : bytes -> option bytes.
Variable o : fopts.
Hypothesis cover : fo_cover o = true.
Local Notation v23 := (w_v23 w).
Local Notation ok := (frame_ok v23 (fo_mode o)).

Lemma header_ok_inv : forall f, ok f -> exists s, f_id f = Valid s /\ valid_name s /\ kind_of_name s = kind_of f /\
  (v23 = true -> ~ In s RENAMED) /\ flags_ok (f_flags f) /\ kind_of f <> KOwne /\ kind_of f <> KEtco.
Proof. intros f H. destruct H as [f ((s & A & B & C & D) & E & F) _ _ _]. exists s. tauto. Qed.
Lemma ok_named : forall f, ok f -> named f.
Proof. intros f H. destruct (header_ok_inv f H) as (s & A & _ & B & _). exists s. auto. Qed.
Lemma not_old : forall s, ~ In s RENAMED -> ~ old_name s.
Proof. intros s H [-> | [-> | ->]]; apply H; unfold RENAMED; cbn [In]; tauto. Qed.

Definition P (f : frame) : Prop := ok f -> forall b, frame_bytes w f = Ok b -> lenN b < 2 ^ 32 ->
  b <> [] /\ forall fuel, (length b <= fuel)%nat ->
  parse_content (read_all inflate fuel (wv w) false o []) (f_id f) (f_flags f) (wv w) (fo_mode o) b = Ok (Some (restored v23 f), []).

Lemma read_end : forall kids tail, hd 0 tail = 0 -> read_frame inflate kids (wv w) false o tail = Ok (PEnd, []).
Proof.
  intros. unfold read_frame. replace (is_v2 (wv w)) with false by (unfold wv; destruct (w_v23 w); reflexivity).
  assert (parse_header (is_v4 (wv w)) (fo_implicit o) tail = HEnd) as ->; auto.
  unfold parse_header. destruct (read_exact 10 tail) as [[h r]|] eqn:E; auto. apply read_exact_spec in E as (-> & L).
  destruct h. discriminate L. cbn [nth]. cbn [app hd] in H. subst. reflexivity.
Qed.
(** One step of both writers. *)
Lemma items_step : forall f l root b, ok f ->
  (if v23 then items23 (frame_bytes w) w root None (f :: l) else items24 (frame_bytes w) w root (f :: l)) = Ok b ->
  exists b1 b2, b = b1 ++ b2 /\
    ((is_root f && root = true /\ b1 = []) \/
     (is_root f && root = false /\ exists v, frame_bytes w f = Ok v /\ emit_frame w f v = Ok b1)) /\
    (if v23 then items23 (frame_bytes w) w (root || is_root f) None l else items24 (frame_bytes w) w (root || is_root f) l) = Ok b2.
Proof.
  intros f l root b K E. destruct (header_ok_inv f K) as (s & Hi & Hn & Hk & Hr & _).
  assert (W : forall G : bool -> res ferr bytes, (let? (b, root) := write_one (frame_bytes w) w root f in let? r := G root in Ok (b ++ r)) = Ok b ->
    exists b1 b2, b = b1 ++ b2 /\
    ((is_root f && root = true /\ b1 = []) \/
     (is_root f && root = false /\ exists v, frame_bytes w f = Ok v /\ emit_frame w f v = Ok b1)) /\ G (root || is_root f) = Ok b2).
  { intros G X. unfold write_one in X. fold (is_root f) in X. destruct (is_root f && root) eqn:R.
    - cbn [bind] in X. apply andb_true_iff in R as [-> ->]. destruct (G true) as [r| |] eqn:Er; try discriminate X. cbn [bind] in X.
      injection X as <-. exists [], r. cbn [orb]. auto.
    - destruct (frame_bytes w f) as [v| |]; cbn [bind] in X; try discriminate X.
      destruct (emit_frame w f v) as [b1| |] eqn:Ev; cbn [bind] in X; try discriminate X.
      destruct (G (root || is_root f)) as [r| |] eqn:Er; cbn [bind] in X; try discriminate X. injection X as <-.
      exists b1, r. split; auto. split; auto. right. eauto. }
  destruct v23 eqn:V.
  - cbn [items23] in E. rewrite Hi in E. cbn [is_valid_id negb] in E. destruct (conv_same s f Hi (Hr eq_refl)) as (C1 & C2).
    rewrite C1, C2 in E. destruct (verify_frame f); cbn [negb] in E; [|discriminate E].
    apply (W (fun root => items23 (frame_bytes w) w root None l)). exact E.
  - cbn [items24] in E. rewrite Hi in E. cbn [is_valid_id negb] in E. destruct (verify_frame f); cbn [negb] in E; [|discriminate E].
    apply (W (fun root => items24 (frame_bytes w) w root l)). exact E.
Qed.
Lemma list_rt : forall l, Forall P l -> Forall ok l -> forall root acc b tail fuel,
  (if v23 then items23 (frame_bytes w) w root None l else items24 (frame_bytes w) w root l) = Ok b ->
  lenN b < 2 ^ 32 -> hd 0 tail = 0 -> (length (b ++ tail) < fuel)%nat ->
  Forall named acc -> NoDup (map identity_of (acc ++ map (restored v23) l)) ->
  (if root then 1 else 0) + lenN (filter is_root l) <= 1 ->
  read_all inflate fuel (wv w) false o acc (b ++ tail) = Ok (acc ++ map (restored v23) l, []).
Proof.
  induction l as [|f l IH]; intros PP KK root acc b tail fuel E Hb Ht Hf Na ND Hr.
  - assert (b = []) as ->. { destruct v23; cbn [items23 items24] in E; congruence. }
    destruct fuel; [lia|]. cbn [read_all app]. rewrite read_end by auto. cbn [bind map]. now rewrite app_nil_r.
  - apply Forall_cons_iff in PP as [Pf PP]. apply Forall_cons_iff in KK as [Kf KK].
    destruct (items_step f l root b Kf E) as (b1 & b2 & -> & H & E2). clear E.
    destruct H as [(R & _)|(R & v & Ev & Em)].
    + exfalso. apply andb_true_iff in R as [R ->]. cbn [filter] in Hr. rewrite R, lenN_cons in Hr. lia.
    + destruct (header_ok_inv f Kf) as (s & Hi & Hn & Hk & Hrn & Hfl & _).
      rewrite lenN_app in Hb. unfold emit_frame, f_name in Em. rewrite Hi in Em. cbn [id_str] in Em.
      pose proof (emit_len _ _ _ _ _ Em) as Lv.
      destruct (Pf Kf v Ev ltac:(lia)) as (NE & PC).
      destruct fuel as [|fuel]; [lia|].
      assert (Lv' : (length v <= length b1)%nat) by (unfold lenN in Lv; lia).
      specialize (PC fuel). rewrite !app_length in Hf. specialize (PC ltac:(lia)). rewrite Hi in PC.
      destruct (emit_read w inflate (read_all inflate fuel (wv w) false o []) o s (f_flags f) v b1 _ (b2 ++ tail) Hn
                  (fun V _ => not_old s (Hrn V)) Hfl (or_introl cover) Em NE ltac:(lia) PC) as (RF & Lb & _).
      cbn [read_all]. rewrite <- app_assoc, RF. cbn [bind map].
      assert (AN : add_read (restored v23 f) acc = acc ++ [restored v23 f]).
      { apply add_new; auto. apply restored_named, ok_named; auto.
        rewrite map_app in ND. cbn [map] in ND. apply NoDup_remove_2 in ND. intro I. apply ND. apply in_or_app. auto. }
      rewrite AN. replace (acc ++ restored v23 f :: map (restored v23) l) with ((acc ++ [restored v23 f]) ++ map (restored v23) l) in * by (now rewrite <- app_assoc).
      apply (IH PP KK (root || is_root f)); auto.
      * lia.
      * rewrite app_length. unfold lenN in Lb. lia.
      * apply Forall_app. split; auto. constructor; auto. apply restored_named, ok_named; auto.
      * cbn [map] in ND. now rewrite <- app_assoc.
      * cbn [filter] in Hr. destruct root, (is_root f); cbn [orb]; rewrite ?lenN_cons in Hr; lia.
Qed.
Lemma entries_rt : forall es rest, Forall (terminated_ok Latin1) es -> exists b, concat_res (fun e => enc_text w Latin1 e true) es = Ok b /\
  ctoc_entries (length es) (b ++ rest) = Ok (es, rest).
Proof.
  induction es; intros rest F. exists []. split; auto. apply Forall_cons_iff in F as [Fa F]. destruct (IHes rest F) as (b & E & Q).
  destruct (rt_latin w a (b ++ rest) Fa) as (n & E1 & E2 & _). cbn [concat_res]. rewrite E1, E. cbn [bind]. eexists. split; [reflexivity|].
  cbn [length ctoc_entries]. rewrite <- app_assoc, E2. cbn [bind d_content]. rewrite Q. reflexivity.
Qed.
Lemma kids_rt : forall l k fuel, Forall P l -> Forall ok l -> list_ok v23 l ->
  items (frame_bytes w) w l = Ok k -> lenN k < 2 ^ 32 -> (length k < fuel)%nat ->
  read_all inflate fuel (wv w) false o [] k = Ok (map (restored v23) l, []).
Proof.
  intros l k fuel PP KK (ND & R) E L F. pose proof (list_rt l PP KK false [] k [] fuel) as X.
  rewrite app_nil_r in X. apply X; auto.
Qed.
Lemma all_P : forall f, P f.
Proof.
  apply frame_rect'. intros f IH K b E Hb.
  destruct (leaf f) eqn:Lf.
  - destruct (header_ok_inv f K) as (s & Hi & Hn & Hk & _). destruct K as [f _ C _ _].
    assert (E' : leaf_bytes w f = Ok b) by (destruct f; try discriminate Lf; exact E).
    split. eapply leaf_nonempty; eauto. intros fuel _.
    destruct (rt_leaf w (wv w) (read_all inflate fuel (wv w) false o []) (fo_mode o) f s) as [X|(b' & X & Y)]; auto.
    + unfold wv. destruct (w_v23 w); discriminate.
    + congruence.
    + congruence.
  - destruct (header_ok_inv f K) as (s & Hi & Hn & Hk & _).
    destruct K as [f _ C KK LK].
    assert (HH : mkFH (Valid s) (f_flags f) = f_header f).
    { unfold f_flags. rewrite <- Hi. unfold f_id. destruct (f_header f); reflexivity. }
    assert (V2 : is_v2 (wv w) = false) by (unfold wv; destruct (w_v23 w); reflexivity).
    destruct f as [| | | | | | | | | | | | | | |h i [st et] [so eo] l|h i top ord es l|]; try discriminate Lf; cbn [children] in IH;
    cbn [content_ok] in C; cbn [frame_bytes] in E; fold (frame_bytes w) in E; cbn [restored].
    + destruct C as (Ci & C1 & C2 & C3 & C4).
      destruct (items (frame_bytes w) w l) as [k| |] eqn:Ek; try (destruct (enc_text w Latin1 i true); discriminate E).
      set (tail := be_enc 4 st ++ be_enc 4 et ++ be_enc 4 so ++ be_enc 4 eo ++ k).
      destruct (rt_latin w i tail Ci) as (n & E1 & E2 & _). rewrite E1 in E. cbn [bind] in E. fold tail in E.
      assert (b = (i ++ [0]) ++ tail) by congruence. subst b. clear E.
      split. destruct i; discriminate. intros fuel Hf. rewrite Hi, dispatch, Hk, HH. cbv zeta. cbn [kind_of f_header].
      unfold parse_chap. rewrite V2, E2. cbn [bind d_content]. subst tail.
      rewrite read_be_app; [|reflexivity|exact C1]. cbn [from_opt bind].
      rewrite read_be_app; [|reflexivity|exact C2]. cbn [from_opt bind].
      rewrite read_be_app; [|reflexivity|exact C3]. cbn [from_opt bind].
      rewrite read_be_app; [|reflexivity|exact C4]. cbn [from_opt bind].
      rewrite (kids_rt l k fuel IH KK LK Ek). reflexivity.
      rewrite !lenN_app in Hb. lia. rewrite !app_length in Hf. cbn [length] in Hf. lia.
    + destruct C as (Ci & Ce). destruct (N.ltb_spec 255 (lenN es)); [discriminate E|].
      destruct (items (frame_bytes w) w l) as [k| |] eqn:Ek.
      2,3: (destruct (enc_text w Latin1 i true); try discriminate E; cbn [bind] in E;
        destruct (concat_res (fun e => enc_text w Latin1 e true) es); discriminate E).
      destruct (entries_rt es k Ce) as (eb & E1 & E2). rewrite E1 in E.
      set (tail := N.lor (if ord then 1 else 0) (if top then 2 else 0) :: lenN es :: eb ++ k).
      destruct (rt_latin w i tail Ci) as (n & E3 & E4 & _). rewrite E3 in E. cbn [bind] in E. fold tail in E.
      assert (b = (i ++ [0]) ++ tail) by congruence. subst b. clear E.
      split. destruct i; discriminate. intros fuel Hf. rewrite Hi, dispatch, Hk, HH. cbv zeta. cbn [kind_of f_header].
      unfold parse_ctoc. rewrite V2, E4. cbn [bind d_content]. subst tail. cbn [read_u8 from_opt bind].
      replace (N.to_nat (lenN es)) with (length es) by (unfold lenN; lia). rewrite E2. cbn [bind].
      rewrite (kids_rt l k fuel IH KK LK Ek). { destruct top, ord; reflexivity. }
      cbn [app] in *. rewrite !lenN_app, !lenN_cons, !lenN_app in Hb. lia.
      rewrite !app_length in Hf. cbn [length] in Hf. rewrite !app_length in Hf. lia.
Qed.
Theorem frames_rt : forall l b tail fuel, Forall ok l -> list_ok v23 l -> write_frames w l = Ok b -> lenN b < 2 ^ 32 -> hd 0 tail = 0 ->
  (length (b ++ tail) < fuel)%nat ->
  read_all inflate fuel (wv w) false o [] (b ++ tail) = Ok (map (restored v23) l, []).
Proof.
  intros l b tail fuel KK (ND & R) E L T F. apply (list_rt l) with (root := false); auto.
  apply Forall_forall. intros. apply all_P.
Qed.
End Whole.
