(** Chunk lists, RIFF INFO lists and ID3v2 chunks in WAV and AIFF files. *)
From Verif Require Import BaseLemmas StrLemmas TextProof IffModel IffSpec IffProof IffProof2 IffProof3 IffProof4.

(** ** C103: going through the chunks of a file *)
(** What a user of [Chunks] sees: the identifier, size and start of each chunk, and the bytes read of it. *)
Fixpoint visit (fuel : nat) (be : bool) (m : pmode) (amount : bytes -> N -> N) (s : chunks) : res iff_error (list (bytes * N * N * bytes)) :=
  match fuel with
  | O => Panic
  | S fuel =>
      let? (c, s) := next be m s in
      match c with
      | None => Ok []
      | Some c =>
          let? (b, s) := chunk_read (amount (k_fourcc c) (k_size c)) s in
          let? l := visit fuel be m amount s in
          Ok ((k_fourcc c, k_size c, k_start c, b) :: l)
      end
  end.
(** Chunks, each with or without its pad byte. *)
Definition piece (be : bool) (p : (bytes * bytes) * bool) : bytes :=
  fst (fst p) ++ size32 be (lenN (snd (fst p))) ++ snd (fst p) ++ (if snd p then pad_of (snd (fst p)) else []).
Fixpoint seen (be : bool) (amount : bytes -> N -> N) (start : N) (l : list ((bytes * bytes) * bool)) : list (bytes * N * N * bytes) :=
  match l with
  | [] => []
  | p :: l => (fst (fst p), lenN (snd (fst p)), start, takeN (amount (fst (fst p)) (lenN (snd (fst p)))) (snd (fst p))) :: seen be amount (start + lenN (piece be p)) l
  end.
Lemma piece_len : forall be p, lenN (fst (fst p)) = 4 -> lenN (piece be p) = 8 + lenN (snd (fst p)) + (if snd p then pad_len (lenN (snd (fst p))) else 0).
Proof. intros be [[id c] [|]] L; unfold piece; cbn [fst snd] in *; rewrite !lenN_app, size32_len, L; [rewrite pad_of_len|change (lenN (@nil N)) with 0]; lia. Qed.
Lemma next_piece : forall be m total rem lk p more pos, chunk_ok (fst p) -> lenN (piece be p) <= rem ->
  next be m (fresh total rem lk (piece be p ++ more) pos) =
  Ok (Some (mkChunk (fst (fst p)) (lenN (snd (fst p))) (total - rem)),
      mkCh total (rem - 8) (lenN (snd (fst p))) (lenN (snd (fst p))) lk (snd (fst p) ++ (if snd p then pad_of (snd (fst p)) else []) ++ more) (pos + 8)).
Proof.
  intros be m total rem lk [[id c] [|]] more pos O R.
  - assert (E : piece be (id, c, true) = chunk_bytes be (id, c)) by reflexivity. rewrite E in *. exact (next_at be m _ total rem lk (id, c) more pos (skip_done _ _ _ _ _) O R).
  - destruct O as [I S]. cbn [fst snd] in *. assert (I' := I). destruct I' as [L4 _]. rewrite piece_len in R by auto. cbn [fst snd] in R. unfold next, fresh. rewrite skip_done. cbn [bind].
    destruct (N.ltb_spec rem 8); [lia|]. unfold piece. cbn [fst snd]. rewrite app_nil_r. rewrite <- !app_assoc.
    assert (V : valid_fourcc id = true) by (apply id_ok_valid in I; tauto). rewrite (read_exact_app 4 id _ L4). cbn [iord bind]. rewrite V. cbn [negb].
    rewrite (read_exact_app 4 (size32 be (lenN c)) _ (size32_len _ _)). cbn [iord bind]. rewrite dec_size by exact S. destruct (N.ltb_spec rem (lenN c)); [lia|]. reflexivity.
Qed.
(** A missing pad byte is noticed where another chunk follows. *)
Lemma skip_piece : forall be total rem lk p n next_id more pos, chunk_ok (fst p) -> n <= lenN (snd (fst p)) -> lenN (piece be p) <= rem ->
  (snd p = true \/ (id_ok next_id /\ lenN (piece be p) + 4 < rem) \/ rem = lenN (piece be p)) -> (snd p = true -> next_id = []) -> (rem = lenN (piece be p) -> next_id = []) ->
  skip (mkCh total (rem - 8 - n) (lenN (snd (fst p))) (lenN (snd (fst p)) - n) lk (dropN n (snd (fst p)) ++ (if snd p then pad_of (snd (fst p)) else []) ++ next_id ++ more) (pos + 8 + n)) =
  Ok (fresh total (rem - lenN (piece be p)) lk (next_id ++ more) (pos + lenN (piece be p))).
Proof.
  intros be total rem lk [[id c] [|]] n nid more pos O LN R C P Q; cbn [fst snd] in *.
  - rewrite P by auto. exact (skip_read be total rem lk (id, c) more pos n O LN R).
  - assert (L4 : lenN id = 4) by (destruct O as [[L _] _]; exact L). rewrite piece_len in * by auto. cbn [fst snd] in *. cbn [app].
    assert (D : lenN (dropN n c) = lenN c - n) by apply lenN_dropN. unfold skip.
    assert (S1 : (if 0 <? lenN c - n then mkCh total (rem - 8 - n - (lenN c - n)) (lenN c) 0 lk (dropN (lenN c - n) (dropN n c ++ nid ++ more)) (pos + 8 + n + (lenN c - n))
       else mkCh total (rem - 8 - n) (lenN c) (lenN c - n) lk (dropN n c ++ nid ++ more) (pos + 8 + n)) = mkCh total (rem - (8 + lenN c + 0)) (lenN c) 0 lk (nid ++ more) (pos + (8 + lenN c + 0))).
    { destruct (N.ltb_spec 0 (lenN c - n)). rewrite dropN_app by auto. f_equal; lia. assert (Z : dropN n c = []) by (apply lenN_0; lia). rewrite Z. cbn [app]. f_equal; lia. }
    rewrite S1. unfold correct_position. destruct (N.even (lenN c)) eqn:EV; cbn [orb]. { reflexivity. }
    destruct C as [C|[[I RM]|C]]; [discriminate| |].
    + destruct (N.ltb_spec (rem - (8 + lenN c + 0)) 1); [lia|]. apply id_ok_valid in I as I2. destruct I2 as [L V]. destruct (id_nonzero nid I) as (b & l & -> & NZ). cbn [app read_u8 iord bind].
      destruct (N.eqb_spec b 0); [lia|]. destruct (N.ltb_spec 4 (rem - (8 + lenN c + 0))); [|lia]. cbn [negb andb].
      rewrite (read_exact_app 3 l) by (rewrite lenN_cons in L; lia). cbn [iord bind]. rewrite V. reflexivity.
    + destruct (N.ltb_spec (rem - (8 + lenN c + 0)) 1); [|lia]. reflexivity.
Qed.
Lemma visit_from : forall l be m amount s total rem lk more pos, (forall id n, amount id n <= n) -> Forall (fun p => chunk_ok (fst p)) l -> rem <= total ->
  skip s = Ok (fresh total rem lk (flat_map (piece be) l ++ more) pos) -> rem - lenN (flat_map (piece be) l) < 8 -> lenN (flat_map (piece be) l) <= rem ->
  (l <> [] -> snd (last l ([], [], true)) = true \/ rem = lenN (flat_map (piece be) l)) ->
  visit (S (length l)) be m amount s = Ok (seen be amount (total - rem) l).
Proof.
  induction l as [|p l IH]; intros be m amount s total rem lk more pos AM F RT SK RK RB LP.
  - cbn [visit length]. rewrite (next_none be m s total rem lk ([] ++ more) pos SK) by (cbn [flat_map] in RK; rewrite lenN_nil in RK; lia). reflexivity.
  - inversion F as [|? ? O F']; subst. cbn [flat_map] in *. rewrite lenN_app in *. rewrite <- app_assoc in SK. cbn [length]. remember (S (length l)) as fu eqn:FU. cbn [visit]. subst fu.
    rewrite (next_skip be m s _ SK eq_refl eq_refl). rewrite next_piece by (auto; lia). cbn [bind k_fourcc k_size k_start].
    set (n := amount (fst (fst p)) (lenN (snd (fst p)))). assert (LN : n <= lenN (snd (fst p))) by apply AM.
    rewrite <- (takeN_dropN _ n (snd (fst p))) at 3. rewrite <- app_assoc. rewrite chunk_read_app by (auto; rewrite lenN_takeN; lia). cbn [bind].
    assert (SKP : exists nid more', flat_map (piece be) l ++ more = nid ++ more' /\ (snd p = true \/ (id_ok nid /\ lenN (piece be p) + 4 < rem) \/ rem = lenN (piece be p)) /\ (snd p = true -> nid = []) /\ (rem = lenN (piece be p) -> nid = [])).
    { destruct (snd p) eqn:SP. { exists [], (flat_map (piece be) l ++ more). auto. }
      destruct l as [|q l].
      - exists [], more. repeat split; auto. cbn [flat_map] in *. rewrite lenN_nil, N.add_0_r in *. right. right. destruct (LP ltac:(discriminate)) as [X|X]; auto. cbn [last] in X. congruence.
      - inversion F' as [|? ? Oq _]; subst. exists (fst (fst q)). eexists. split. cbn [flat_map]. unfold piece at 1. rewrite <- !app_assoc. reflexivity.
        assert (L4 : lenN (fst (fst q)) = 4) by (destruct Oq as [[L _] _]; exact L). cbn [flat_map] in RB. rewrite lenN_app, (piece_len be q L4) in RB.
        split; [|split]; [|discriminate|lia]. right. left. split; [apply Oq|]. lia. }
    destruct SKP as (nid & more' & EQ & C1 & C2 & C3). rewrite EQ.
    rewrite (IH be m amount _ total (rem - lenN (piece be p)) lk more (pos + lenN (piece be p)) AM F' ltac:(lia)); [|rewrite EQ; apply skip_piece; auto; lia|lia|lia|].
    + cbn [bind]. cbn [seen]. fold n. replace (total - (rem - lenN (piece be p))) with (total - rem + lenN (piece be p)) by lia. reflexivity.
    + intros NE. destruct (LP ltac:(discriminate)) as [X|X]; [|right; lia]. left. destruct l; [congruence|]. exact X.
Qed.

(** Whatever part of each chunk is read, the next one is found; the pad byte of an odd chunk may also be missing. *)
Theorem C103_all_chunks : forall l be m amount junk pos, (forall id n, amount id n <= n) -> Forall (fun p => chunk_ok (fst p)) l -> lenN junk < 8 ->
  (l <> [] -> snd (last l ([], [], true)) = true \/ junk = []) ->
  visit (S (length l)) be m amount (chunks_new (flat_map (piece be) l ++ junk) pos (lenN (flat_map (piece be) l ++ junk))) = Ok (seen be amount 0 l).
Proof.
  intros l be m amount junk pos AM F J LP. replace (seen be amount 0 l) with (seen be amount (lenN (flat_map (piece be) l ++ junk) - lenN (flat_map (piece be) l ++ junk)) l) by now rewrite N.sub_diag. unfold chunks_new.
  eapply visit_from; [exact AM|exact F|lia|apply skip_done|rewrite lenN_app; lia|rewrite lenN_app; lia|].
  intros NE. destruct (LP NE) as [X|X]; auto. right. subst. now rewrite app_nil_r.
Qed.
Theorem C103_well_formed : forall cs be m amount junk pos, (forall id n, amount id n <= n) -> Forall chunk_ok cs -> lenN junk < 8 ->
  visit (S (length cs)) be m amount (chunks_new (body be cs ++ junk) pos (lenN (body be cs ++ junk))) = Ok (seen be amount 0 (map (fun c => (c, true)) cs)).
Proof.
  intros cs be m amount junk pos AM F J. assert (E : body be cs = flat_map (piece be) (map (fun c => (c, true)) cs)). { clear. induction cs as [|c cs IH]; [reflexivity|]. cbn [map flat_map]. rewrite <- IH. destruct c. reflexivity. }
  rewrite E. rewrite <- (map_length (fun c => (c, true)) cs). apply C103_all_chunks; auto. now apply Forall_map.
  intros NE. left. clear - NE. induction cs as [|c [|d cs] IH]; [destruct NE; reflexivity|reflexivity|]. apply IH. discriminate.
Qed.
Example C103_ex : exists l, visit 3 false Strict (fun id n => n - 1) (chunks_new (body false [($"fmt ", [1; 2; 3]); ($"data", [4; 5; 6; 7])]) 12 24) = Ok l /\
  l = [($"fmt ", 3, 0, [1; 2]); ($"data", 4, 12, [4; 5; 6])].
Proof. eexists. split. vm_compute. reflexivity. reflexivity. Qed.
(** A pad byte that is not zero and makes a valid identifier with what follows is taken for the next chunk. *)
Theorem C103_pad_refuted : exists l, visit 5 false Strict (fun _ n => n) (chunks_new ($"fmt " ++ le_enc 4 1 ++ [7] ++ $"x" ++ $"data" ++ le_enc 4 2 ++ [1; 2]) 0 20) = l /\
  (forall x, l <> Ok [($"fmt ", 1, 0, [7]); x]).
Proof. eexists. split. vm_compute. reflexivity. discriminate. Qed.

(** ** C104: RIFF INFO lists written and parsed *)
Theorem C104_roundtrip : forall m t, riff_ok t -> lenN (body false (map item_chunk (kept t))) < 2 ^ 32 -> forall fuel pos, (length t < fuel)%nat ->
  exists list_bytes, (t = [] -> list_bytes = []) /\ (t <> [] -> create_riff_info t = (if U32_MAX <? 4 + lenN (body false (map item_chunk (kept t))) then Err ITooMuch else
     Ok ($"LIST" ++ le_enc 4 (lenN list_bytes + 4) ++ $"INFO" ++ list_bytes))) /\
  exists s, parse_riff_info fuel m (chunks_new list_bytes pos (lenN list_bytes)) [] = Ok (kept t, s).
Proof.
  intros m t TO L fuel pos FU. exists (body false (map item_chunk (kept t))). split; [|split].
  - intros ->. reflexivity.
  - intros NE. unfold create_riff_info. rewrite (items_body t TO). destruct t as [|i t]; [congruence|]. rewrite lenN_app. change (lenN ($"INFO")) with 4.
    destruct (N.ltb_spec U32_MAX (4 + lenN (body false (map item_chunk (kept (i :: t)))))); [reflexivity|]. do 3 f_equal. f_equal. lia.
  - eexists. unfold chunks_new. assert (KO := kept_ok t TO). assert (P := fun total rem => parse_chunks (map item_chunk (kept t)) fuel m total None [] pos [] rem 0). rewrite app_nil_r in P. rewrite P; try lia.
    + cbn [app]. f_equal. f_equal. clear - KO. induction KO as [|i l O F IH]; [reflexivity|]. cbn [map flat_map]. rewrite IH. destruct (item_text i O) as [_ ->]. reflexivity.
    + now apply items_ok.
    + apply Forall_map. eapply Forall_impl; [|exact KO]. intros i O _. destruct (item_text i O) as [-> _]. eauto.
    + rewrite map_length. assert (length (kept t) <= length t)%nat by (unfold kept; clear; induction t as [|i t IH]; cbn; auto; destruct (filled i); cbn; lia). lia.
Qed.
Example C104_ex : let t := [($"INAM", $"Name"); ($"IART", $"Artist")] in riff_ok t /\ kept t = t /\
  create_riff_info t = Ok ($"LIST" ++ le_enc 4 34 ++ $"INFO" ++ $"INAM" ++ le_enc 4 5 ++ $"Name" ++ [0; 0] ++ $"IART" ++ le_enc 4 7 ++ $"Artist" ++ [0; 0]).
Proof.
  cbv zeta. split; [|split; reflexivity].
  assert (I : forall id, lenN id = 4 -> valid_fourcc id = true -> id_ok id) by (intros; now apply id_ok_valid).
  constructor; [right|constructor; [right|constructor]]; (split; [apply I; reflexivity|]); (split; [repeat constructor; vm_compute; auto|]); (split; [discriminate|]); split; vm_compute; congruence.
Qed.

(** ** C105: saving a RIFF INFO list in a WAV file *)
(** The INFO lists of a file as they are read. *)
Definition no_id3 : bytes -> res iff_error unit := fun _ => Ok tt.
Definition reads_info (m : pmode) (data : bytes) (t : riff) : Prop :=
  exists f, wav_read (T := unit) no_id3 (fun a _ => a) m true false data = Ok f /\ wf_info f = match t with [] => None | _ => Some t end.
(** No list yet: it is added after the last chunk; the file before it and anything after the RIFF chunk stay. *)
Theorem C105_new_list : forall m cs junk t, Forall chunk_ok cs -> Forall list_ok cs -> Forall (fun c => is_info c = false) cs -> riff_ok t ->
  12 + lenN (body false cs) < 2 ^ 32 -> 4 + lenN (body false (cs ++ info_chunks t)) < 2 ^ 32 ->
  exists ops, write_riff_info m (riff_file cs ++ junk) t = Ok ops /\ apply_log (riff_file cs ++ junk) ops = riff_file (cs ++ info_chunks t) ++ junk.
Proof. exact save_new. Qed.
(** The first list is replaced where it is; all other chunks stay. An empty tag removes it. *)
Theorem C105_list_replaced : forall m a c b junk t, Forall chunk_ok (a ++ c :: b) -> Forall list_ok (a ++ [c]) -> Forall (fun c => is_info c = false) a -> is_info c = true -> riff_ok t ->
  N.even (lenN (snd c)) = true ->
  12 + lenN (body false (a ++ c :: b)) < 2 ^ 32 -> 4 + lenN (body false (a ++ info_chunks t ++ b)) < 2 ^ 32 ->
  exists ops, write_riff_info m (riff_file (a ++ c :: b) ++ junk) t = Ok ops /\ apply_log (riff_file (a ++ c :: b) ++ junk) ops = riff_file (a ++ info_chunks t ++ b) ++ junk.
Proof. exact save_old. Qed.

(** Chunks that are no INFO lists, as the reader sees them. *)
Definition plain (m : pmode) (c : bytes * bytes) : Prop := wchunk_ok m (WChunk c).
Lemma plain_infos : forall cs, infos (map WChunk cs) = []. Proof. induction cs; auto. Qed.
Lemma plain_chunks : forall cs, map to_chunk (map WChunk cs) = cs. Proof. induction cs as [|c cs IH]; auto. cbn. now rewrite IH. Qed.
Lemma infos_app : forall a b, infos (a ++ b) = infos a ++ infos b. Proof. intros. unfold infos. apply flat_map_app. Qed.
Lemma join_unit : forall l acc, exists t, join_all no_id3 (fun a _ => a) acc l = Ok t.
Proof. induction l as [|b l IH]; intro acc; cbn [join_all]; eauto. cbn [no_id3 bind]. apply IH. Qed.
Lemma reads_infos : forall m ws junk, Forall (wchunk_ok m) ws -> lenN junk < 8 -> 4 + lenN (body false (map to_chunk ws)) < 2 ^ 32 -> reads_info m (riff_file (map to_chunk ws) ++ junk) (infos ws).
Proof.
  intros m ws junk W J L. unfold reads_info. rewrite wav_read_spec by auto. cbn [join_if]. destruct (join_unit (id3_contents ws) None) as [t E]. unfold join_if. rewrite E. cbn [bind]. eexists. split. reflexivity. cbn [wf_info]. destruct (infos ws); reflexivity.
Qed.
Definition info_w (t : riff) : list wchunk := match t with [] => [] | _ => [WInfo (map item_chunk (kept t))] end.
Lemma info_w_chunks : forall t, map to_chunk (info_w t) = info_chunks t. Proof. intros [|i t]; reflexivity. Qed.
Lemma info_w_infos : forall t, riff_ok t -> infos (info_w t) = kept t.
Proof.
  intros [|i t] TO; [reflexivity|]. cbn [info_w infos flat_map]. rewrite app_nil_r. assert (KO := kept_ok _ TO). induction KO as [|x l O F IH]; [reflexivity|]. cbn [map flat_map]. rewrite IH. destruct (item_text x O) as [_ ->]. reflexivity.
Qed.
Lemma info_w_ok : forall m t, riff_ok t -> lenN (body false (info_chunks t)) < 2 ^ 32 -> Forall (wchunk_ok m) (info_w t).
Proof.
  intros m [|i t] TO L; [constructor|]. assert (IC := info_chunks_ok _ TO L). cbn [info_w]. constructor; [|constructor]. unfold wchunk_ok. split. cbn [info_chunks] in IC. inversion IC; subst. assumption.
  assert (KO := kept_ok _ TO). split. now apply items_ok. apply Forall_map. eapply Forall_impl; [|exact KO]. intros x O _. destruct (item_text x O) as [-> _]. eauto.
Qed.
(** Read again, the file has the non-empty values of the tag in order, after those of no other list. *)
Theorem C105_read_back : forall m a b junk t, Forall (plain m) (a ++ b) -> lenN junk < 8 -> riff_ok t -> 4 + lenN (body false (a ++ info_chunks t ++ b)) < 2 ^ 32 ->
  reads_info m (riff_file (a ++ info_chunks t ++ b) ++ junk) (kept t).
Proof.
  intros m a b junk t P J TO L. assert (E : a ++ info_chunks t ++ b = map to_chunk (map WChunk a ++ info_w t ++ map WChunk b)) by (now rewrite !map_app, info_w_chunks, !plain_chunks).
  assert (K : kept t = infos (map WChunk a ++ info_w t ++ map WChunk b)) by (rewrite !infos_app, !plain_infos, info_w_infos by auto; now rewrite app_nil_r).
  rewrite K, E. apply reads_infos; auto. 2: now rewrite <- E.
  apply Forall_app in P as [P1 P2]. apply Forall_app. split. now apply Forall_map. apply Forall_app. split; [|now apply Forall_map]. apply info_w_ok; auto. unfold body in *. rewrite !flat_map_app, !lenN_app in L. lia.
Qed.
Definition wave1 : list (bytes * bytes) := [($"fmt ", [1; 0; 1; 0]); ($"data", [1; 2; 3])].
Definition info1 : riff := [($"INAM", $"Name")].
Example C105_ex : exists ops, write_riff_info Strict (riff_file (wave1 ++ [($"LIST", $"INFO")]) ++ [9]) info1 = Ok ops /\
  apply_log (riff_file (wave1 ++ [($"LIST", $"INFO")]) ++ [9]) ops = riff_file (wave1 ++ [($"LIST", $"INFO" ++ $"INAM" ++ le_enc 4 5 ++ $"Name" ++ [0; 0])]) ++ [9] /\
  reads_info Strict (apply_log (riff_file (wave1 ++ [($"LIST", $"INFO")]) ++ [9]) ops) info1.
Proof. eexists. split. vm_compute. reflexivity. split. vm_compute. reflexivity. unfold reads_info. eexists. split. vm_compute. reflexivity. reflexivity. Qed.
(** A second list in the file stays and is read as part of the tag. *)
Theorem C105_second_list_refuted : exists data ops, write_riff_info Strict data info1 = Ok ops /\ ~ reads_info Strict (apply_log data ops) info1 /\
  reads_info Strict (apply_log data ops) (info1 ++ [($"IART", $"B")]).
Proof.
  exists (riff_file (wave1 ++ [($"LIST", $"INFO" ++ $"IART" ++ le_enc 4 2 ++ [65; 0]); ($"LIST", $"INFO" ++ $"IART" ++ le_enc 4 2 ++ [66; 0])])). eexists. split. vm_compute. reflexivity. split.
  - intros (f & H & I). vm_compute in H. inversion H; subst. discriminate I.
  - eexists. split. vm_compute. reflexivity. reflexivity.
Qed.
(** The pad byte of an odd list stays behind, where the next chunk should start; that chunk is not found any more. *)
Theorem C105_odd_list_refuted : exists data ops a c b, data = riff_file (a ++ c :: b) /\ Forall chunk_ok (a ++ c :: b) /\ is_info c = true /\ write_riff_info Strict data info1 = Ok ops /\
  apply_log data ops <> riff_file (a ++ info_chunks info1 ++ b) /\ lenN (apply_log data ops) = 8 + le_dec (takeN 4 (dropN 4 (apply_log data ops))) /\
  wav_read no_id3 (fun a _ => a) Strict true false (apply_log data ops) = Err ISize.
Proof.
  exists (riff_file (wave1 ++ [($"LIST", $"INFO" ++ $"IART" ++ le_enc 4 1 ++ [65]); ($"LIST", $"adtl")])). eexists. exists wave1, ($"LIST", $"INFO" ++ $"IART" ++ le_enc 4 1 ++ [65]), [($"LIST", $"adtl")].
  split. reflexivity. split. { repeat (constructor; [split; [apply id_ok_valid; split; reflexivity|vm_compute; reflexivity]|]). constructor. } split. reflexivity. split. vm_compute. reflexivity. split. vm_compute. discriminate. split; vm_compute; reflexivity.
Qed.
(** Files that make saving panic: a RIFF size below 4, one near the 32-bit limit, and a list that is larger than the file. *)
Theorem C105_panic_refuted : write_riff_info Strict ($"RIFF" ++ le_enc 4 3 ++ $"WAVE") info1 = Panic /\
  write_riff_info Strict ($"RIFF" ++ le_enc 4 (2 ^ 32 - 1) ++ $"WAVE") info1 = Panic /\
  write_riff_info BestAttempt ($"RIFF" ++ le_enc 4 20 ++ $"WAVE" ++ $"LIST" ++ le_enc 4 16 ++ $"INFO" ++ [0; 0; 0; 0]) info1 = Panic.
Proof. repeat split; vm_compute; reflexivity. Qed.

Print Assumptions C103_all_chunks. Print Assumptions C103_well_formed. Print Assumptions C103_pad_refuted.
Print Assumptions C104_roundtrip.
Print Assumptions C105_new_list. Print Assumptions C105_list_replaced. Print Assumptions C105_read_back. Print Assumptions C105_second_list_refuted. Print Assumptions C105_odd_list_refuted. Print Assumptions C105_panic_refuted.
