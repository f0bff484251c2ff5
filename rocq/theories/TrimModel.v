(** [str::trim] of std: removes characters with the Unicode property White_Space at both ends. *)
From Verif Require Export Base TextModel.
Definition white (c : N) : bool :=
  ((9 <=? c) && (c <=? 13)) || (c =? 0x20) || (c =? 0x85) || (c =? 0xA0) || (c =? 0x1680) || ((0x2000 <=? c) && (c <=? 0x200A))
  || (c =? 0x2028) || (c =? 0x2029) || (c =? 0x202F) || (c =? 0x205F) || (c =? 0x3000).
Fixpoint trim_start (s : str) : str := match s with c :: s' => if white c then trim_start s' else s | [] => [] end.
Fixpoint trim_end (s : str) : str :=
  match s with
  | [] => []
  | c :: s' => match trim_end s' with [] => if white c then [] else [c] | t => c :: t end
  end.
Definition trim (s : str) : str := trim_end (trim_start s).
Lemma trim_start_id : forall c s, white c = false -> trim_start (c :: s) = c :: s.
Proof. intros. cbn [trim_start]. now rewrite H. Qed.
Lemma trim_end_id : forall s, Forall (fun c => white c = false) s -> trim_end s = s.
Proof. induction 1; cbn [trim_end]; auto. rewrite IHForall. destruct l; auto. now rewrite H. Qed.
Lemma trim_none : forall s, Forall (fun c => white c = false) s -> trim s = s.
Proof. intros s H. unfold trim. destruct s as [|c s]; auto. rewrite trim_start_id by now inversion H. now apply trim_end_id. Qed.
