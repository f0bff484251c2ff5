(** Property theorems for timestamps (C18-C20, C48, C49). *)
From Verif Require Import BaseLemmas Str StrLemmas TimestampModel TimestampSpec TimestampProof TimestampProof2.

(** C18 *)
Theorem C18_roundtrip : forall t m, ts_verify t = Ok tt ->
  ts_parse (ts_display t) m = Ok (Some t) /\ lenN (ts_display t) <= 19 /\ ts_display t = extended t.
Proof.
  intros t m V. apply verify_iff, limits_representable in V. rewrite display_extended by auto.
  split; [|split; auto]. exact (parse_text true t m V). exact (text_len true t).
Qed.
Print Assumptions C18_roundtrip.
Theorem C18_from_str : forall t, ts_verify t = Ok tt -> ts_from_str (ts_display t) = Ok t.
Proof. intros. unfold ts_from_str. destruct (C18_roundtrip t BestAttempt H) as [-> _]. reflexivity. Qed.
Print Assumptions C18_from_str.
Theorem C18_verify_exact : forall t, ts_verify t = Ok tt <-> in_limits t.
Proof. exact verify_iff. Qed.
Print Assumptions C18_verify_exact.
Definition ts_sample : timestamp := mkTs 2024 (Some 6) (Some 3) (Some 14) (Some 8) (Some 49).
Example C18_ex : ts_verify ts_sample = Ok tt /\ ts_display ts_sample = $"2024-06-03T14:08:49" /\
  ts_display (mkTs 7 (Some 1) None None None None) = $"0007-01" /\
  ts_verify (mkTs 2024 None (Some 3) None None None) = Err (TFieldTooLarge FDay).
Proof. vm_compute. auto. Qed.

(** C19 *)
Theorem C19_order : forall a b, ts_verify a = Ok tt -> ts_verify b = Ok tt ->
  ts_cmp a b = lex (ts_display a) (ts_display b).
Proof.
  intros a b A B. apply verify_iff, limits_representable in A, B. rewrite !display_extended by auto. symmetry. now apply cmp_text.
Qed.
Print Assumptions C19_order.
Theorem C19_total_order : forall a b c,
  (ts_cmp a b = Eq <-> a = b) /\ ts_cmp b a = CompOpp (ts_cmp a b) /\
  (ts_cmp a b = Lt -> ts_cmp b c = Lt -> ts_cmp a c = Lt).
Proof.
  intros. rewrite !ts_cmp_opts. split; [|split].
  - rewrite opts_cmp_eq by reflexivity. split. apply ts_eq_lists. now intros ->.
  - apply opts_cmp_antisym.
  - now apply opts_cmp_trans.
Qed.
Print Assumptions C19_total_order.
Example C19_ex : ts_cmp (mkTs 2024 None None None None None) ts_sample = Lt /\ ts_cmp ts_sample (mkTs 999 (Some 12) None None None None) = Gt /\
  lex ($"2024") ($"2024-06") = Lt /\ lex ($"2024-06") ($"0999-12") = Gt.
Proof. vm_compute. auto. Qed.

(** C20 *)
Theorem C20_parse_total : forall bs m,
  match ts_parse bs m with
  | Ok (Some t) => representable t
  | Ok None => True
  | Err _ => True
  | Panic => False
  end.
Proof. exact parse_total. Qed.
Print Assumptions C20_parse_total.
Example C20_ex : ts_parse ($"2024-99-99T99:99:99") Strict = Ok (Some (mkTs 2024 (Some 99) (Some 99) (Some 99) (Some 99) (Some 99))) /\
  ts_parse ($"    ") Relaxed = Err TIo /\ ts_parse ($"20 24-  ") Relaxed = Ok (Some (mkTs 202 None None None None None)).
Proof. vm_compute. auto. Qed.

(** C48: what strict mode accepts; parsing is stable under display. *)
Theorem C48_strict_sound : forall bs t, ts_parse bs Strict = Ok (Some t) ->
  representable t /\
  exists tail, (takeN 19 bs = extended t ++ tail \/ takeN 19 bs = basic t ++ tail) /\ (ts_second t = None -> tail = []).
Proof.
  intros bs t H. split. { pose proof (parse_total bs Strict) as P. now rewrite H in P. }
  apply parse_strict in H as (b & tail & E & T). exists tail. split; auto. destruct b; [left|right]; exact E.
Qed.
Print Assumptions C48_strict_sound.
Theorem C48_strict_complete : forall t m, representable t ->
  ts_parse (extended t) m = Ok (Some t) /\ ts_parse (basic t) m = Ok (Some t).
Proof. intros t m R. split. exact (parse_text true t m R). exact (parse_text false t m R). Qed.
Print Assumptions C48_strict_complete.
Theorem C48_normal_form : forall bs m t m', ts_parse bs m = Ok (Some t) -> ts_parse (ts_display t) m' = Ok (Some t).
Proof.
  intros. pose proof (parse_total bs m) as P. rewrite H in P. rewrite display_extended by auto. exact (parse_text true t m' P).
Qed.
Print Assumptions C48_normal_form.
Example C48_ex : basic ts_sample = $"20240603T140849" /\ ts_parse ($"20240603T140849") Strict = Ok (Some ts_sample) /\
  ts_parse ($"2024.06") Strict = Err (TUnexpectedChar 46) /\ ts_parse ($"2024-0603") Strict = Err TMissingSeparator.
Proof. vm_compute. auto. Qed.

(** C49: unpadded fields in the lenient modes. *)
Theorem C49_lenient_partial : forall t m ws, representable t -> m <> Strict ->
  Forall2 written (present (subfields t)) ws -> ws <> [] -> lenN (last ws []) <> 1 ->
  ts_parse (d4 (ts_year t) ++ joinw [45; 45; 84; 58; 58] ws) m = Ok (Some t).
Proof. intros. apply parse_written; auto. destruct m; auto. congruence. Qed.
Print Assumptions C49_lenient_partial.
Example C49_ex : joinw [45; 45; 84; 58; 58] [$"6"; $" 3"; $"9"; $"08"; [32; 49]] = $"-6- 3T9:08: 1" /\
  ts_parse ($"2024-6- 3T9:08: 1") Relaxed = Ok (Some (mkTs 2024 (Some 6) (Some 3) (Some 9) (Some 8) (Some 1))).
Proof. vm_compute. auto. Qed.
Theorem C49_lenient_refuted : ~ (forall t m ws, representable t -> m <> Strict ->
  Forall2 written (present (subfields t)) ws -> ws <> [] ->
  ts_parse (d4 (ts_year t) ++ joinw [45; 45; 84; 58; 58] ws) m = Ok (Some t)).
Proof.
  intro H. specialize (H (mkTs 2024 (Some 6) None None None None) Relaxed [$"6"]).
  assert (X : ts_parse ($"2024-6") Relaxed = Ok (Some (mkTs 2024 (Some 6) None None None None))).
  { apply H. split; cbn; [lia|]. split; [lia|repeat constructor]. discriminate.
    repeat constructor. discriminate. }
  vm_compute in X. discriminate.
Qed.
Print Assumptions C49_lenient_refuted.
