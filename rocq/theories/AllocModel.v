(** Model of lofty/src/util/alloc.rs and config/global_options.rs, and of the limit for allocations in the readers of Vorbis comments (ogg/tag/read.rs) and of APE items
    (ape/tag/read.rs) and in [as_bytes] of the ID3v2 frames that use it (items/private_frame.rs, popularimeter.rs, event_timing_codes_frame.rs, chapter_frame.rs,
    table_of_contents_frame.rs). The memory of a vector is written out: its cells up to the capacity, each of them written or not. The allocator is a function [grow] that
    gives the new capacity for the one that is needed, or none. [Panic] stands for a write outside of the memory too. In the other readers allocation does not fail.
    Simplified: frames inside chapters and tables of contents are written without a limit. *)
From Verif Require Import Base Str TextModel PictureModel ApeModel FrameModel VorbisModel.

(** ** alloc.rs 6-14; [Other] is an error that is not about memory *)
Inductive alloc_error := LimitExceeded | ReserveError.
Section Memory.
  Context {A : Type}.
  Implicit Type a : A.
  Record vec := mkVec { v_cells : list (option A); v_len : N }.
  Definition vec_new : vec := mkVec [] 0.
  Definition v_contents (v : vec) : list (option A) := takeN (v_len v) (v_cells v).
  (** std: [Vec::try_reserve] *)
  Definition try_reserve (grow : N -> option N) (v : vec) (n : N) : res alloc_error vec :=
    if v_len v + n <=? lenN (v_cells v) then Ok v else
    match grow (v_len v + n) with
    | None => Err ReserveError
    | Some c => Ok (mkVec (v_cells v ++ repeat None (N.to_nat (c - lenN (v_cells v)))) (v_len v))
    end.
  (** lines 62-69: the loop ends with the length, or outside of the memory *)
  Fixpoint fill (fuel : nat) (cells : list (option A)) (current expected : N) a : res alloc_error (list (option A) * N) :=
    if current =? expected then Ok (cells, current) else
    match fuel with
    | O => Panic
    | S fuel => if current <? lenN cells then fill fuel (update (N.to_nat current) (Some a) cells) (current + 1) expected a else Panic
    end.
  (** 46-77 *)
  Definition fallible_repeat (limit : N) (grow : N -> option N) (v : vec) a (n : N) : res alloc_error vec :=
    if n =? 0 then Ok v else
    if limit <? n then Err LimitExceeded else
    let? v := try_reserve grow v n in
    let? (cells, current) := fill (S (length (v_cells v))) (v_cells v) (v_len v) n a in
    Ok (mkVec cells current).
  (** 85-93 *)
  Definition fallible_vec_from_element (limit : N) (grow : N -> option N) a (n : N) : res alloc_error vec := fallible_repeat limit grow vec_new a n.
  (** 105-116 *)
  Definition try_with_capacity_stable (limit : N) (grow : N -> option N) (n : N) : res alloc_error vec :=
    if limit <? n then Err LimitExceeded else try_reserve grow vec_new n.
End Memory.
Arguments vec : clear implicits.

(** ** global_options.rs 25-29, 33-53, 68-126 *)
Record gopts := mkGo { go_resolvers : bool; go_limit : N; go_preserve : bool }.
Definition DEFAULT_ALLOCATION_LIMIT : N := 16 * 1024 * 1024.
Definition go_new : gopts := mkGo true DEFAULT_ALLOCATION_LIMIT true.
Definition use_custom_resolvers (b : bool) (o : gopts) : gopts := mkGo b (go_limit o) (go_preserve o).
Definition allocation_limit (n : N) (o : gopts) : gopts := mkGo (go_resolvers o) n (go_preserve o).
Definition preserve_format_specific_items (b : bool) (o : gopts) : gopts := mkGo (go_resolvers o) (go_limit o) b.
(** 3-9, 158-162: each thread has its own *)
Definition store := N -> gopts.
Definition initial_store : store := fun _ => go_new.
Definition global_options (thread : N) (s : store) : gopts := s thread.
Definition apply_global_options (thread : N) (o : gopts) (s : store) : store := fun t => if t =? thread then o else s t.

(** ** Readers with a limit *)
Inductive lerr (E : Type) := Limit | Other (e : E).
Arguments Limit {E}. Arguments Other {E} _.
Definition lift {E A} (r : res E A) : res (lerr E) A := match r with Ok x => Ok x | Err e => Err (Other e) | Panic => Panic end.
(** [try_vec![0; n]?] with an allocator that does not fail *)
Definition allocate {E} (limit n : N) : res (lerr E) unit := if limit <? n then Err Limit else Ok tt.

(** picture/mod.rs 861 in a comment (ogg/tag/read.rs 102-118): it comes after the other checks *)
Definition read_comment_lim (limit : N) (o : vopts) (t : vc) (c : bytes) : res (lerr vc_error) vc :=
  let plain := lift (read_comment o t c) in
  match split_once 61 c with
  | Some (k, v) =>
      if eq_ignore_case k MBP && vo_cover o then
        match from_flac_bytes v true (vo_mode o) with
        | Ok (p, _) => if limit <? lenN (p_data p) then strictly (vo_mode o) Limit t else plain
        | _ => plain
        end
      else plain
  | None => plain
  end.
(** ogg/tag/read.rs 79-90 *)
Fixpoint read_comment_list_lim (limit : N) (n : nat) (o : vopts) (len : N) (r : bytes) (t : vc) : res (lerr vc_error) vc :=
  match n with
  | O => Ok t
  | S n =>
      let? (clen, r) := lift (vrd (read_le 4 r)) in
      if len <? clen then Err (Other VSize) else
      let? _ := allocate limit clen in
      let? (c, r) := lift (vrd (read_exact clen r)) in
      let? t := read_comment_lim limit o t c in
      read_comment_list_lim limit n o (len - clen) r t
  end.
(** 21-78 *)
Definition read_comments_lim (limit : N) (o : vopts) (len : N) (r : bytes) : res (lerr vc_error) vc :=
  let? (vlen, r) := lift (vrd (read_le 4 r)) in
  if len <? vlen then Err (Other VSize) else
  let? _ := allocate limit vlen in
  let? (vb, r) := lift (vrd (read_exact vlen r)) in
  let len := len - vlen in
  let? vendor := lift (read_vendor (vo_mode o) vb) in
  let? (n, r) := lift (vrd (read_le 4 r)) in
  if (len / 4) mod 2 ^ 32 <? n then Err (Other VSize) else
  read_comment_list_lim limit (N.to_nat n) o len r (mkVc vendor [] []).
(** line 76: the bytes that are asked for the list of comments before the first is read; a pair of strings has 48 (on machines of 64 bits) *)
Definition list_request (o : vopts) (len : N) (r : bytes) : option N :=
  match read_le 4 r with
  | Some (vlen, r) =>
      if len <? vlen then None else
      match read_exact vlen r with
      | Some (_, r) => match read_le 4 r with Some (n, _) => if ((len - vlen) / 4) mod 2 ^ 32 <? n then None else Some (48 * n) | None => None end
      | None => None
      end
  | None => None
  end.

(** ape/tag/read.rs 28-68: the memory is asked for first *)
Definition parse_item_lim (limit : N) (key : str) (flags size : N) (r : N * bytes) : res (lerr ape_error) (ape_item * (N * bytes)) :=
  let? _ := allocate limit size in lift (parse_item key flags size r).
(** 71-108 *)
Fixpoint read_items_lim (limit : N) (fuel : nat) (count remaining : N) (cover : bool) (t : ape_tag) (r : N * bytes) : res (lerr ape_error) (ape_tag * (N * bytes)) :=
  match fuel with
  | O => Err (Other AIo)
  | S fuel =>
      if count =? 0 then Ok (t, r)
      else if remaining <? 11 then Ok (t, r)
      else
        let? (size, r) := lift (rd_le4 r) in
        if remaining <? size then Err (Other ASize) else
        let? (flags, r) := lift (rd_le4 r) in
        let? (kb, r) := lift (rd_key r) in
        let? key := lift (dec_text kb) in
        if existsb (list_eqb key) APE_PICTURE_TYPES && negb cover then
          read_items_lim limit fuel (count - 1) (remaining - 4) cover t (rd_skip size r)
        else
          let? (i, r) := parse_item_lim limit key flags size r in
          read_items_lim limit fuel (count - 1) (remaining - 4) cover (ape_insert i t) r
  end.
Definition read_with_header_lim (limit size count : N) (cover : bool) (r : N * bytes) : res (lerr ape_error) (ape_tag * (N * bytes)) :=
  let? (t, r) := read_items_lim limit (S (length (snd r))) count size cover ape_default r in
  Ok (t, rd_skip 32 r).

(** ** The frames. [String::len] is in bytes. *)
(** private_frame.rs 115, popularimeter.rs 139, event_timing_codes_frame.rs 320, chapter_frame.rs 135, table_of_contents_frame.rs 189: what is asked for *)
Definition frame_request (f : frame) : option N :=
  match f with
  | FPriv _ owner data => Some (lenN (utf8_enc owner) + lenN data)
  | FPopm _ email _ _ => Some (lenN (utf8_enc email) + 9)
  | FEtco _ _ l => Some (1 + lenN l * 5)
  | FChap _ id _ _ _ | FCtoc _ id _ _ _ _ => Some (lenN (utf8_enc id) + 16)
  | _ => None
  end.
(** a table of contents checks the number of its entries first (184-186) *)
Definition early (f : frame) : bool := match f with FCtoc _ _ _ _ es _ => 255 <? lenN es | _ => false end.
Definition frame_bytes_lim (body : frame -> res ferr bytes) (limit : N) (f : frame) : res (lerr ferr) bytes :=
  if early f then lift (body f) else
  match frame_request f with
  | Some n => let? _ := allocate limit n in lift (body f)
  | None => lift (body f)
  end.
