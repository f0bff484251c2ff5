(** Lists of frames: inserting, removing and reading. *)
From Verif Require Import BaseLemmas FrameProof1 FrameProof2 Frame23Proof.
From Verif Require Export FrameReadModel FrameListSpec.
From Coq Require Import Permutation.

Lemma sane_eqb : forall f g, sane f -> frame_eqb f g = true -> in_names (f_name f) ONE_PER_TAG = true -> f_id f = f_id g.
Proof.
  intros f g S E H. specialize (S H). assert (f_header f = f_header g).
  { destruct f; cbn [kind_of] in S; try (exfalso; destruct S as [S|[S|S]]; discriminate S);
    destruct g; cbn [frame_eqb] in E; try discriminate E; rewrite ?andb_true_iff, ?yes_true in E; cbn [f_header]; tauto. }
  unfold f_id. congruence.
Qed.
Lemma eqb_identity : forall f g, sane f -> sane g -> in_names (f_name f) ONE_PER_TAG = false ->
  (frame_eqb g f = true <-> identity_of g = identity_of f).
Proof.
  intros f g Sf Sg N. destruct (in_names (f_name g) ONE_PER_TAG) eqn:G.
  - split; intro E.
    + apply sane_eqb in E; auto. unfold f_name in *. rewrite E in G. congruence.
    + exfalso. unfold identity_of in E. rewrite G, N in E. destruct f; discriminate E.
  - now apply frame_eqb_spec.
Qed.
Lemma take_first_spec : forall p l, match take_first p l with
  | (Some x, r) => exists a b, l = a ++ x :: b /\ r = a ++ b /\ p x = true /\ Forall (fun f => p f = false) a
  | (None, r) => r = l /\ Forall (fun f => p f = false) l
  end.
Proof.
  induction l as [|y l IH]; cbn [take_first]. auto. destruct (p y) eqn:E.
  - exists [], l. auto.
  - destruct (take_first p l) as [[x|] r].
    + destruct IH as (a & b & -> & -> & Hx & F). exists (y :: a), b. auto.
    + destruct IH as (-> & F). auto.
Qed.
Definition opt_list {A} (o : option A) : list A := match o with Some x => [x] | None => [] end.
Lemma single_identity : forall f g, in_names (f_name f) ONE_PER_TAG = true -> (identity_of g = identity_of f <-> f_id g = f_id f).
Proof.
  intros f g H. unfold identity_of. rewrite H. split; intro E.
  - destruct (in_names (f_name g) ONE_PER_TAG). now injection E. destruct g; discriminate E.
  - unfold f_name in *. rewrite E, H. reflexivity.
Qed.
(** What insertion does to a list without duplicates. *)
Lemma insert_spec : forall f l, sane f -> Forall sane l -> NoDup (map identity_of l) ->
  exists r, fst (fl_insert f l) = r ++ [f] /\ Permutation l (opt_list (snd (fl_insert f l)) ++ r) /\
    (forall g, In g (opt_list (snd (fl_insert f l))) -> identity_of g = identity_of f) /\
    ~ In (identity_of f) (map identity_of r).
Proof.
  intros f l Sf Sl ND. unfold fl_insert. destruct (in_names (f_name f) ONE_PER_TAG) eqn:S.
  - cbn [fst snd]. exists (fl_remove (f_id f) l). split; auto.
    pose proof (remove_perm (f_id f) l) as P.
    assert (X : Permutation l (fl_removed (f_id f) l ++ filter (other_than (f_id f)) l)).
    { clear. unfold fl_removed. induction l as [|x l IH]; auto. cbn [filter]. unfold other_than at 1. destruct (id_eqb (f_id x) (f_id f)); cbn [negb app].
      now constructor. rewrite IH at 1. apply Permutation_middle. }
    assert (Y : fl_removed (f_id f) l = opt_list (hd_error (fl_removed (f_id f) l))).
    { destruct (fl_removed (f_id f) l) as [|a [|b r]] eqn:E; auto. exfalso.
      assert (Ia : forall c, In c (a :: b :: r) -> identity_of c = identity_of f).
      { intros c I. rewrite <- E in I. apply filter_In in I as [_ I]. apply id_eqb_eq in I. now apply single_identity. }
      apply (Permutation_NoDup (Permutation_map identity_of X)) in ND. cbn [app map] in ND. apply NoDup_cons_iff in ND as [ND _]. apply ND. left.
      rewrite (Ia a), (Ia b); cbn; auto. }
    split; [|split].
    + rewrite <- Y. now rewrite P.
    + intros g I. rewrite <- Y in I. apply filter_In in I as [_ I]. apply id_eqb_eq in I. now apply single_identity.
    + intro I. apply in_map_iff in I as (g & E & I). apply (Permutation_in _ P) in I. apply filter_In in I as [_ I].
      apply single_identity in E; auto. unfold other_than in I. rewrite E in I. assert (id_eqb (f_id f) (f_id f) = true) by (now apply id_eqb_eq).
      rewrite H in I. discriminate I.
  - pose proof (take_first_spec (fun g => frame_eqb g f) l) as T. destruct (take_first _ l) as [[x|] r]; cbn [fst snd opt_list] in *.
    + destruct T as (a & b & -> & -> & Ex & _). apply Forall_app in Sl as [Sa Sb]. apply Forall_cons_iff in Sb as [Sx Sb].
      apply eqb_identity in Ex; auto. exists (a ++ b). split; auto. split. symmetry. apply (Permutation_middle a b x). split.
      intros g [<- |[]]. auto. rewrite map_app in ND. cbn [map] in ND. apply NoDup_remove_2 in ND. now rewrite map_app, <- Ex.
    + destruct T as (-> & F). exists l. split; auto. split; auto. split. intros g []. intro I. apply in_map_iff in I as (g & E & I).
      rewrite Forall_forall in F, Sl. specialize (F g I). cbv beta in F. apply eqb_identity in E; auto. congruence.
Qed.
Lemma good_insert : forall f l, sane f -> Forall sane l -> NoDup (map identity_of l) ->
  Forall sane (fst (fl_insert f l)) /\ NoDup (map identity_of (fst (fl_insert f l))) /\
  (forall g, In g (fst (fl_insert f l)) -> g = f \/ In g l) /\ (forall g, snd (fl_insert f l) = Some g -> In g l).
Proof.
  intros f l Sf Sl ND. destruct (insert_spec f l Sf Sl ND) as (r & E & P & _ & NI). rewrite E.
  assert (Ir : forall g, In g r -> In g l) by (intros g I; apply (Permutation_in _ (Permutation_sym P)); apply in_or_app; auto).
  split; [|split; [|split]].
  - apply Forall_app. split; auto. rewrite Forall_forall in *. auto.
  - rewrite map_app. cbn [map]. apply (Permutation_NoDup (l := identity_of f :: map identity_of r)). apply Permutation_cons_append.
    constructor; auto. apply (Permutation_NoDup (Permutation_map identity_of P)) in ND. rewrite map_app in ND. now apply NoDup_app_inv in ND.
  - intros g I. apply in_app_or in I as [I|[<- |[]]]; auto.
  - intros g Eg. rewrite Eg in P. apply (Permutation_in _ (Permutation_sym P)). cbn. auto.
Qed.
Lemma tidy_inv : forall l, tidy l -> Forall sane l /\ NoDup (map identity_of l) /\ Forall (fun f => tidy (inside f)) l.
Proof. destruct 1. auto. Qed.
Lemma tidy_nil : tidy []. Proof. constructor; constructor. Qed.
Lemma tidy_insert : forall f l, sane f -> tidy (inside f) -> tidy l -> tidy (fst (fl_insert f l)).
Proof.
  intros f l Sf Tf T. apply tidy_inv in T as (S & ND & F). destruct (good_insert f l Sf S ND) as (A & B & C & _). constructor; auto.
  rewrite Forall_forall in *. intros g I. destruct (C g I) as [-> |J]; auto.
Qed.
Lemma tidy_add : forall f l, sane f -> tidy (inside f) -> tidy l -> tidy (add_read f l).
Proof.
  intros f l Sf Tf T. unfold add_read. pose proof (tidy_insert f l Sf Tf T) as X. pose proof T as T'. apply tidy_inv in T' as (S & ND & F).
  destruct (good_insert f l Sf S ND) as (_ & _ & _ & G). destruct (fl_insert f l) as [l' [g|]]; cbn [fst snd] in *; auto.
  rewrite Forall_forall in S, F. specialize (G g eq_refl).
  destruct (f_is_empty f) as [[|]|]; auto. destruct (f_is_empty g) as [[|]|]; auto. apply tidy_insert; auto.
Qed.
Lemma tidy_perm : forall l l', Permutation l l' -> tidy l -> tidy l'.
Proof.
  intros l l' P T. apply tidy_inv in T as (A & B & C). constructor. now apply (Permutation_Forall P). apply (Permutation_NoDup (Permutation_map _ P) B).
  now apply (Permutation_Forall P).
Qed.
Lemma tidy_filter : forall p l, tidy l -> tidy (filter p l).
Proof.
  intros p l T. apply tidy_inv in T as (A & B & C). constructor.
  - rewrite Forall_forall in *. intros x I. apply filter_In in I as [I _]. auto.
  - clear - B. induction l; cbn [filter map] in *; auto. apply NoDup_cons_iff in B as [B1 B]. destruct (p a); auto. cbn [map]. constructor; auto.
    intro I. apply B1. apply in_map_iff in I as (x & <- & I). apply filter_In in I as [I _]. now apply in_map.
  - rewrite Forall_forall in *. intros x I. apply filter_In in I as [I _]. auto.
Qed.
Lemma tidy_remove : forall id l, tidy l -> tidy (fl_remove id l).
Proof. intros. eapply tidy_perm. symmetry. apply remove_perm. now apply tidy_filter. Qed.
Lemma tidy_construct : forall l, tidy l -> tidy (construct_tdrc l).
Proof.
  intros l T. unfold construct_tdrc. destruct (hd_error (fl_removed TDRC l)) as [f|] eqn:E; auto.
  assert (Hf : sane f /\ tidy (inside f)).
  { assert (In f l). { unfold fl_removed in E. destruct (filter _ l) eqn:F; [discriminate|]. injection E as ->.
      apply (proj1 (filter_In (fun f => id_eqb (f_id f) TDRC) f l)). rewrite F. now left. }
    apply tidy_inv in T as (A & B & C). rewrite Forall_forall in *. auto. }
  assert (Ti : forall t e, tidy (fst (fl_insert (FTime (mkFH TDRC ff_default) e t) (fl_remove TDRC l)))).
  { intros. apply tidy_insert. intro X. discriminate X. apply tidy_nil. now apply tidy_remove. }
  destruct f; try (apply tidy_insert; [apply Hf|apply Hf|now apply tidy_remove]).
  destruct (ts_month t). now apply tidy_remove. cbv zeta.
  destruct (text_pair TDAT _) as [[d m]|]; auto. destruct (text_pair TIME _) as [[hh mm]|]; auto using tidy_remove.
Qed.

(** *** Frames that are read *)
Definition gives (Q : frame -> Prop) (p : parsed) : Prop := match p with Ok (Some f, _) => Q f | _ => True end.
Definition shape (kids : kids_reader) (h : frame_header) (k : kind) (f : frame) : Prop :=
  f_header f = h /\ kind_of f = k /\ (inside f = [] \/ exists x y, kids x = Ok (inside f, y)).
Ltac step := match goal with
  | |- gives _ (bind ?x _) => let E := fresh "E" in destruct x eqn:E; cbn [bind]; try exact I
  | |- gives _ (match ?x with _ => _ end) => let E := fresh "E" in destruct x eqn:E; try exact I
  | |- gives _ (Ok (Some _, _)) => cbn [gives]; split; [reflexivity|split; [reflexivity|eauto]]
  | |- gives _ (let '(_, _) := ?x in _) => destruct x
  end.
Lemma shapes : forall kids h v m r,
  gives (shape kids h KPicture) (parse_picture h v r) /\ gives (shape kids h KUserText) (parse_user_text h v r) /\
  gives (shape kids h KUserUrl) (parse_user_url h v r) /\ gives (shape kids h KComment) (parse_lang (FComment h) v r) /\
  gives (shape kids h KUnsync) (parse_lang (FUnsync h) v r) /\ gives (shape kids h KPairs) (parse_key_value h v r) /\
  gives (shape kids h KUfid) (parse_ufid h m r) /\ gives (shape kids h KRva2) (parse_rva2 h m r) /\ gives (shape kids h KOwne) (parse_owne h r) /\
  gives (shape kids h KEtco) (parse_etco h r) /\ gives (shape kids h KPriv) (parse_priv h r) /\ gives (shape kids h KTime) (parse_time h m r) /\
  gives (shape kids h KText) (parse_text h v r) /\ gives (shape kids h KUrl) (parse_url h r) /\ gives (shape kids h KPopm) (parse_popm h r) /\
  gives (shape kids h KChap) (parse_chap kids h v r) /\ gives (shape kids h KCtoc) (parse_ctoc kids h v r) /\ gives (shape kids h KBin) (parse_bin h r).
Proof.
  intros. repeat split;
  unfold parse_picture, parse_user_text, parse_user_url, parse_lang, parse_key_value, parse_ufid, parse_rva2, parse_owne, parse_etco, parse_priv, parse_time,
    parse_text, parse_url, parse_popm, parse_chap, parse_ctoc; repeat step.
  left. reflexivity.
Qed.
Lemma gives_impl : forall (Q R : frame -> Prop) p, (forall f, Q f -> R f) -> gives Q p -> gives R p.
Proof. intros Q R [[[f|] x]| |]; cbn; auto. Qed.
Definition from_kids (kids : kids_reader) (f : frame) : Prop := inside f = [] \/ exists x y, kids x = Ok (inside f, y).
Definition id_ok (id : frame_id) : Prop := match id with Valid _ => True | Outdated s => lenN s = 3 end.
Lemma id_new_ok : forall s id, frame_id_new s = Some id -> id_ok id.
Proof.
  intros s id. unfold frame_id_new. destruct (forallb _ s); [|discriminate]. destruct (N.eqb_spec (lenN s) 3). intro H. injection H as <-. exact e.
  destruct (lenN s =? 4); [|discriminate]. intro H. injection H as <-. exact I.
Qed.
Lemma leb_len : forall a b, lenN a <> lenN b -> list_eqb a b = false.
Proof. intros a b H. destruct (list_eqb a b) eqn:E; auto. apply list_eqb_eq in E. congruence. Qed.
Lemma dispatch3 : forall kids s fl v m r, lenN s = 3 ->
  parse_content kids (Outdated s) fl v m r = let h := mkFH (Outdated s) fl in
    if starts 84 s then parse_text h v r else if starts 87 s then parse_url h r else parse_bin h r.
Proof.
  intros kids s fl v m r L. unfold parse_content, in_names, TIME_IDS. cbn [id_str existsb].
  assert (X : forall c, lenN c = 4 -> list_eqb s c = false) by (intros; apply leb_len; lia).
  rewrite !X by reflexivity. cbn [orb]. reflexivity.
Qed.
Lemma content_sane : forall kids id fl v m r, id_ok id -> gives (fun f => f_id f = id /\ sane f /\ from_kids kids f) (parse_content kids id fl v m r).
Proof.
  intros kids id fl v m r Hid. destruct id as [s|s].
  - assert (X : forall p, gives (shape kids (mkFH (Valid s) fl) (kind_of_name s)) p -> gives (fun f => f_id f = Valid s /\ sane f /\ from_kids kids f) p).
    { intros p G. eapply gives_impl; [|exact G]. intros f (Hh & Hk & C). unfold sane, f_name, f_id. rewrite Hh. cbn [fh_id id_str].
      split; auto. split; auto. intro S. rewrite Hk. now apply single_kinds. }
    rewrite dispatch. cbv zeta. pose proof (shapes kids (mkFH (Valid s) fl) v m r) as Sh. destruct (kind_of_name s); apply X; apply Sh.
  - assert (X : forall k p, gives (shape kids (mkFH (Outdated s) fl) k) p -> gives (fun f => f_id f = Outdated s /\ sane f /\ from_kids kids f) p).
    { intros k p G. eapply gives_impl; [|exact G]. intros f (Hh & Hk & C). unfold sane, f_name, f_id. rewrite Hh. cbn [fh_id id_str].
      split; auto. split; auto. intro S. exfalso. unfold in_names in S. apply existsb_exists in S as (x & I & E). apply list_eqb_eq in E. subst x.
      cbn [id_ok] in Hid. unfold ONE_PER_TAG in I. cbn [In] in I. repeat destruct I as [<- |I]; try discriminate Hid; contradiction. }
    rewrite dispatch3 by auto. cbv zeta. pose proof (shapes kids (mkFH (Outdated s) fl) v m r) as Sh.
    destruct (starts 84 s); [|destruct (starts 87 s)]; eapply X; apply Sh.
Qed.
Lemma v2_header_ok : forall r, match parse_v2_header r with HOk id _ _ _ => id_ok id | _ => True end.
Proof.
  intros. unfold parse_v2_header. destruct (read_exact 6 r) as [[h r']|]; auto. destruct (_ =? 0); auto. cbv zeta. destruct (utf8_dec _); auto.
  destruct (frame_id_new _) eqn:E; auto. eapply id_new_ok; eauto.
Qed.
Lemma header_id_ok : forall a b r, match parse_header a b r with HOk id _ _ _ => id_ok id | _ => True end.
Proof.
  intros. unfold parse_header. destruct (read_exact 10 r) as [[h r']|]; auto. destruct (_ =? 0); auto. cbv zeta. destruct (utf8_decode _); auto.
  destruct (frame_id_new _) eqn:E; auto. eapply id_new_ok; eauto.
Qed.
Lemma from_kids_tidy : forall kids f, (forall x l y, kids x = Ok (l, y) -> tidy l) -> from_kids kids f -> tidy (inside f).
Proof. intros kids f K [-> |(x & y & E)]. apply tidy_nil. eauto. Qed.
Lemma read_frame_tidy : forall inflate kids v u o r f r', (forall x l y, kids x = Ok (l, y) -> tidy l) ->
  read_frame inflate kids v u o r = Ok (PNext f, r') -> sane f /\ tidy (inside f).
Proof.
  intros inflate kids v u o r f r' K E. unfold read_frame in E.
  assert (Hh : match (if is_v2 v then parse_v2_header r else parse_header (is_v4 v) (fo_implicit o) r) with HOk id _ _ _ => id_ok id | _ => True end)
    by (destruct (is_v2 v); [apply v2_header_ok|apply header_id_ok]).
  destruct (if is_v2 v then parse_v2_header r else parse_header (is_v4 v) (fo_implicit o) r) as [|size rest|id fl size rest]; [discriminate E| |].
  { destruct (is_strict (fo_mode o)); discriminate E. }
  destruct (negb (fo_cover o) && id_eqb id (Valid $"APIC")); [discriminate E|]. cbv zeta in E.
  destruct (size =? 0). { destruct (is_strict (fo_mode o)); discriminate E. }
  destruct (read_extras _ size rest) as [[[fl' size'] rest']| |]; cbn [bind] in E; try discriminate E.
  destruct (size' =? 0); [discriminate E|].
  set (plain := if ff_unsync fl' then resynchronise (takeN size' rest') else takeN size' rest') in *.
  assert (EN : forall c p (x : bytes), (let? q := encrypted_frame id fl' size' c in Ok (q, x)) = Ok (PNext f, p) -> sane f /\ tidy (inside f)).
  { intros c p x H. unfold encrypted_frame in H. destruct (ff_length fl'); cbn [bind] in H; [|discriminate H].
    destruct (read_exact size' c) as [[b y]|]; cbn [from_opt bind] in H; [|discriminate H]. injection H as <- _. split; [intros _; cbn; auto|apply tidy_nil]. }
  assert (CN : forall c p, content_frame (parse_content kids id fl' v (fo_mode o) c) = Ok (PNext f, p) -> sane f /\ tidy (inside f)).
  { intros c p H. unfold content_frame in H. pose proof (content_sane kids id fl' v (fo_mode o) c Hh) as G.
    destruct (parse_content kids id fl' v (fo_mode o) c) as [[[g|] x]| |]; cbn [bind gives] in *; try discriminate H. injection H as -> _.
    destruct G as (_ & G1 & G2). split; auto. eapply from_kids_tidy; eauto. }
  destruct (ff_compression fl').
  - destruct (inflate plain) as [c|]; cbn [from_opt bind] in E; [|discriminate E]. destruct (is_some (ff_encryption fl')).
    + eapply EN. exact E.
    + destruct (content_frame _) as [[p x]| |] eqn:C; cbn [bind] in E; try discriminate E. injection E as -> _. eapply CN; eauto.
  - destruct (is_some (ff_encryption fl')).
    + eapply EN. exact E.
    + destruct (content_frame _) as [[p x]| |] eqn:C; cbn [bind] in E; try discriminate E. injection E as -> _. eapply CN; eauto.
Qed.
Lemma read_all_tidy : forall inflate fuel v u o acc r l y, tidy acc -> read_all inflate fuel v u o acc r = Ok (l, y) -> tidy l.
Proof.
  induction fuel as [|fuel IH]; intros v u o acc r l y T E. discriminate E. cbn [read_all] in E.
  destruct (read_frame _ _ v u o r) as [[p r']| |] eqn:R; cbn [bind] in E; try discriminate E. destruct p.
  - apply read_frame_tidy in R as (S & K). 2: { intros x l' y' H. eapply IH; [apply tidy_nil|exact H]. }
    eapply IH; [|exact E]. now apply tidy_add.
  - eapply IH; eauto.
  - injection E as <- _. auto.
Qed.
