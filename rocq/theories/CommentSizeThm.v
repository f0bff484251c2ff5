(** Property theorems for the number of values of Vorbis comments (C81). *)
From Coq Require Import Permutation.
From Verif Require Import BaseLemmas StrLemmas PictureThm VorbisModel VorbisThm VorbisThm2.

(** The length is the number of values of all fields and of pictures; appending adds one, removing a field takes away its values. *)
Theorem C81_len : forall t, vc_len t = lenN (vc_items t ++ map (fun p => ([], [])) (vc_pics t)) /\ (vc_len t = 0 <-> vc_clear t = t) /\
  (forall k v, good_name k -> vc_len (vc_push k v t) = vc_len t + 1) /\
  (forall k r, values_of k (vc_items t) r -> vc_len (vc_removed k t) + lenN r = vc_len t) /\
  (forall k v r, good_name k -> values_of k (vc_items t) r -> vc_len (vc_insert k v t) + lenN r = vc_len t + 1).
Proof.
  intro t. assert (SP : forall k, lenN (filter (fun i => negb (vkey_is k i)) (vc_items t)) + lenN (vals k (vc_items t)) = lenN (vc_items t)).
  { intro k. unfold vals. induction (vc_items t) as [|i l IH]; [reflexivity|]. cbn [filter]. destruct (vkey_is k i); cbn [negb map]; rewrite !lenN_cons; lia. }
  split; [unfold vc_len; rewrite lenN_app; f_equal; unfold lenN; now rewrite map_length|]. split; [|split; [|split]].
  - unfold vc_len, vc_clear. destruct t as [v [|i l] [|p q]]; cbn [vc_items vc_pics vc_vendor]; rewrite ?lenN_cons; cbn; split; intro H; try discriminate; try lia; auto.
  - intros k v G. destruct (C81_push t k v) as (_ & P & _ & I). unfold vc_len. rewrite P, (I G), lenN_app. change (lenN [(k, v)]) with 1. lia.
  - intros k r V. destruct (C82_remove_partial k t r V) as (_ & _ & P & I & _). apply values_iff in V. subst r. unfold vc_len. rewrite P.
    apply Permutation_length in I. unfold lenN at 1. rewrite I. fold (lenN (filter (fun i => negb (eq_ignore_case (fst i) k)) (vc_items t))). specialize (SP k). unfold vkey_is in SP. lia.
  - intros k v r G V. apply values_iff in V. subst r. apply verify_key_iff in G. unfold vc_len, vc_insert. rewrite G. cbn [vc_items vc_pics with_vitems]. rewrite lenN_app. change (lenN [(k, v)]) with 1. specialize (SP k). lia.
Qed.
Print Assumptions C81_len.
Theorem C81_contains : forall t k r, values_of k (vc_items t) r -> (vc_contains t k = true <-> r <> []).
Proof.
  intros t k r V. apply values_iff in V. subst r. unfold vc_contains, vals. induction (vc_items t) as [|i l IH]; cbn; [split; [discriminate|tauto]|].
  destruct (vkey_is k i); cbn; [split; [discriminate|auto]|exact IH].
Qed.
Print Assumptions C81_contains.
Example C81_len_ex : vc_len ex_art = 3 /\ vc_len (vc_removed ($"artist") ex_art) = 1 /\ vc_len (vc_insert ($"ARTIST") ($"x") ex_art) = 2 /\ vc_contains ex_art ($"title") = true.
Proof. vm_compute. auto. Qed.
(** Findings: setting the date changes what another field reads as, and a day without a month is not read back. *)
Theorem C81_other_fields_refuted : ~ (forall d t, vc_get (vc_set_date d t) ($"ARTIST") = vc_get t ($"ARTIST")).
Proof. intro H. specialize (H (mkTs 2024 None None None None None) (mkVc [] [($"ARTIST", $"a"); ($"ARTIST", $"b"); (VYEAR, $"4")] [])). vm_compute in H. discriminate. Qed.
Theorem C81_date_refuted : ~ (forall d t, vc_date (vc_set_date d t) = Some d).
Proof. intro H. specialize (H (mkTs 2024 None (Some 3) None None None) (mkVc [] [] [])). vm_compute in H. discriminate. Qed.
Print Assumptions C81_other_fields_refuted. Print Assumptions C81_date_refuted.
