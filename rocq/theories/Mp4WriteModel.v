(** Model of lofty/src/mp4/write.rs, mp4/ilst/write.rs and mp4/read/mod.rs [atom_tree].
    Simplified: atoms that grow to 4 GiB or more are not modelled ([MBig]); the target is little endian; the recursion
    over nested atoms carries fuel, running out of it is [Panic]. *)
From Verif Require Export Base Str TextModel Mode FileModel Mp4Model.

(** ** ilst/write.rs: the atom built from a tag *)
Definition atom_bytes (id content : bytes) : res mp4_error bytes :=
  let n := 8 + lenN content in if U32_MAX <? n then Err MBig else Ok (be_enc 4 n ++ id ++ content).
(** 782-807 *)
Definition write_data (code : N) (d : bytes) : res mp4_error bytes :=
  if 16777215 <? code then Err (MMessage 20) else atom_bytes ($"data") (0 :: be_enc 3 code ++ [0; 0; 0; 0] ++ d).
(** 714-724 *)
Definition bytes_needed (n : N) : N :=
  if n =? 0 then 1 else let k := 4 - (31 - N.log2 n) / 8 in if k =? 3 then 4 else k.
Definition i32_bits (z : Z) : N := Z.to_N (z mod 2 ^ 32)%Z.
(** 682-780 *)
Definition write_value (d : adata) : res mp4_error bytes :=
  match d with
  | AUtf8 s => write_data DT_UTF8 (utf8_enc s)
  | AUtf16 s => write_data DT_UTF16 (utf8_enc s)
  | APic p =>
      match p_mime p with
      | Some Gif => write_data DT_GIF (p_data p)
      | Some Jpeg => write_data DT_JPEG (p_data p)
      | Some Png => write_data DT_PNG (p_data p)
      | Some Bmp => write_data DT_BMP (p_data p)
      | None => write_data DT_RESERVED (p_data p)
      | Some _ => Err (MMessage 21)
      end
  | ASigned z => write_data DT_SIGNED (be_enc 4 (i32_bits z))
  | AUnsigned n => write_data DT_UNSIGNED (dropN (4 - bytes_needed n) (be_enc 4 n))
  | ABool b => write_data DT_SIGNED [if b then 1 else 0]
  | AUnknown c d => write_data c d
  end.
Fixpoint write_values (l : list adata) : res mp4_error bytes :=
  match l with [] => Ok [] | d :: l => let? x := write_value d in let? r := write_values l in Ok (x ++ r) end.
(** 657-680 *)
Definition ident_content (i : ident) : bytes * bytes :=
  match i with
  | Fourcc f => (f, [])
  | Freeform mean name =>
      ($"----", be_enc 4 ((12 + lenN (utf8_enc mean)) mod 2 ^ 32) ++ $"mean" ++ [0; 0; 0; 0] ++ utf8_enc mean
                ++ be_enc 4 ((12 + lenN (utf8_enc name)) mod 2 ^ 32) ++ $"name" ++ [0; 0; 0; 0] ++ utf8_enc name)
  end.
Definition write_item (a : atom) : res mp4_error bytes :=
  let? vs := write_values (at_data a) in
  let '(id, pre) := ident_content (at_ident a) in atom_bytes id (pre ++ vs).
Fixpoint write_items (l : list atom) : res mp4_error bytes :=
  match l with [] => Ok [] | a :: l => let? x := write_item a in let? r := write_items l in Ok (x ++ r) end.
(** 597-655 *)
Definition build_ilst (l : list atom) : res mp4_error bytes :=
  match l with [] => Ok [] | _ => let? c := write_items l in atom_bytes ($"ilst") c end.
(** 424-433 *)
Definition free_atom (n : N) : res mp4_error bytes :=
  if n <? 8 then Panic else Ok (be_enc 4 n ++ $"free" ++ repeat 1 (N.to_nat (n - 8))).
(** 566-595, 537-564 *)
Definition create_meta (ilst : bytes) : res mp4_error bytes :=
  let n := 12 + 33 + lenN ilst in
  if U32_MAX <? n then Err MBig else
  Ok (be_enc 4 n ++ $"meta" ++ [0; 0; 0; 0] ++ be_enc 4 33 ++ $"hdlr" ++ repeat 0 8 ++ $"mdirappl" ++ repeat 0 9 ++ ilst).
Definition create_udta (ilst : bytes) : res mp4_error bytes := let? m := create_meta ilst in atom_bytes ($"udta") m.

(** ** write.rs 17-98: the atoms of the file *)
Inductive catom := CAtom (i : atom_info) (kids : list catom).
Definition c_info (c : catom) : atom_info := match c with CAtom i _ => i end.
Definition c_kids (c : catom) : list catom := match c with CAtom _ k => k end.
Definition IMPORTANT : list bytes := [$"moov"; $"udta"; $"moof"; $"trak"; $"mdia"; $"minf"; $"stbl"].
Definition important (i : ident) : bool := existsb (fun f => is_fourcc f i) IMPORTANT.
Fixpoint ctx_read (fuel : nat) (data : bytes) (m : pmode) (len : N) (r : reader) {struct fuel} : res mp4_error (option catom * N * reader) :=
  match fuel with
  | O => Panic
  | S fuel =>
      if len =? 0 then Ok (None, len, r) else
      let? (o, r) := read_info data len m r in
      match o with
      | None => Ok (None, len, r)
      | Some i =>
          if negb (important (a_ident i)) then
            let? r := skip_atom (a_ext i) (a_len i) r in Ok (Some (CAtom i []), len - a_len i, r)
          else
            let? n := msub (a_len i) (header_size i) in
            let? (kids, rest, r) := ctx_kids fuel data m n r in
            if negb (rest =? 0) then Err (MMessage 22) else Ok (Some (CAtom i kids), len - a_len i, r)
      end
  end
with ctx_kids (fuel : nat) (data : bytes) (m : pmode) (len : N) (r : reader) {struct fuel} : res mp4_error (list catom * N * reader) :=
  match fuel with
  | O => Panic
  | S fuel =>
      let? (o, len, r) := ctx_read fuel data m len r in
      match o with
      | None => Ok ([], len, r)
      | Some c => let? (l, len, r) := ctx_kids fuel data m len r in Ok (c :: l, len, r)
      end
  end.
(** 129-152 *)
Definition read_atoms (data : bytes) (m : pmode) : res mp4_error (list catom) :=
  let? (l, _, _) := ctx_kids (2 * length data + 4) data m (lenN data) (cursor 0) in Ok l.
(** 154-158 *)
Definition find_top (f : bytes) (l : list catom) : option catom := find (fun c => is_fourcc f (a_ident (c_info c))) l.
(** 83-98, 275-318: all atoms with the identifier below [c], not looking into those found *)
Fixpoint all_children (want : bytes) (c : catom) : list atom_info :=
  flat_map (fun k => if is_fourcc want (a_ident (c_info k)) then [c_info k]
                     else match a_ident (c_info k) with Fourcc _ => all_children want k | Freeform _ _ => [] end) (c_kids c).
(** 198-251: the size field of the atom at [pos] *)
Definition write_size (pos size : N) (v : bytes) : res mp4_error bytes :=
  if U32_MAX <? size then Err MBig else Ok (write_at pos (be_enc 4 size) v).
(** [Vec::splice] *)
Definition splice (a b : N) (new v : bytes) : res mp4_error bytes :=
  if (b <? a) || (lenN v <? b) then Panic else Ok (takeN a v ++ new ++ dropN b v).

(** ** read/mod.rs 156-191 *)
Fixpoint tree_loop (fuel : nat) (data : bytes) (len : N) (want : bytes) (m : pmode) (r : reader) (acc : list atom_info) (found : N)
  : res mp4_error (N * list atom_info) :=
  if len <=? 8 then Ok (found, acc) else
  match fuel with
  | O => Panic
  | S fuel =>
      let? (o, r) := read_info data len m r in
      match o with
      | None => Ok (found, acc)
      | Some i =>
          let? r := skip_atom (a_ext i) (a_len i) r in
          let len := len - a_len i in
          match a_ident i with
          | Fourcc f => let acc := acc ++ [i] in tree_loop fuel data len want m r acc (if list_eqb f want then lenN acc else found)
          | Freeform _ _ => tree_loop fuel data len want m r acc found
          end
      end
  end.
Definition atom_tree (data : bytes) (len : N) (want : bytes) (m : pmode) (r : reader) : res mp4_error (N * list atom_info) :=
  let? (found, l) := tree_loop (S (length data)) data len want m r [] 0 in Ok (found - 1, l).

(** ** ilst/write.rs 435-535 *)
Definition add_mod (bits : N) (n : N) (d : Z) : N := Z.to_N ((Z.of_N n + d) mod Z.of_N (2 ^ bits))%Z.
(** the entries of a table of [w]-byte offsets at [pos] *)
Fixpoint shift_entries (w : N) (count : nat) (pos : N) (d : Z) (from : N) (v : bytes) : res mp4_error bytes :=
  match count with
  | O => Ok v
  | S count =>
      let? (x, _) := mord (read_exact w (dropN pos v)) in
      let o := be_dec x in
      shift_entries w count (pos + w) d from (if o <? from then v else write_at pos (be_enc (N.to_nat w) (add_mod (8 * w) o d)) v)
  end.
Definition shift_table (w pos : N) (d : Z) (from : N) (v : bytes) : res mp4_error bytes :=
  let? (c, _) := mord (read_be 4 (dropN pos v)) in shift_entries w (N.to_nat c) (pos + 4) d from v.
Fixpoint shift_stco (l : list atom_info) (d : Z) (from : N) (v : bytes) : res mp4_error bytes :=
  match l with
  | [] => Ok v
  | i :: l => if a_ext i then Err (MMessage 23) else let? v := shift_table 4 (a_start i + 12) d from v in shift_stco l d from v
  end.
Fixpoint shift_co64 (l : list atom_info) (d : Z) (from : N) (v : bytes) : res mp4_error bytes :=
  match l with [] => Ok v | i :: l => let? v := shift_table 8 (a_start i + 20) d from v in shift_co64 l d from v end.
Fixpoint shift_tfhd (l : list atom_info) (d : Z) (from : N) (v : bytes) : res mp4_error bytes :=
  match l with
  | [] => Ok v
  | i :: l =>
      if a_ext i then Err (MMessage 24) else
      let? (flags, _) := mord (read_be 3 (dropN (a_start i + 9) v)) in
      let? v := (if N.odd flags then shift_entries 8 1 (a_start i + 12) d from v else Ok v) in shift_tfhd l d from v
  end.
Definition update_offsets (top : list catom) (moov : catom) (d : Z) (from : N) (v : bytes) : res mp4_error bytes :=
  let? v := shift_stco (all_children ($"stco") moov) d from v in
  let? v := shift_co64 (all_children ($"co64") moov) d from v in
  match find_top ($"moof") top with
  | None => Ok v
  | Some moof => shift_tfhd (all_children ($"tfhd") moof) d from v
  end.

(** ** ilst/write.rs 374-422: the replacement, the change of the size of the file and the padding *)
Definition pad_atom (repl : bytes) (d : Z) (padding : option N) : res mp4_error (bytes * Z * N) :=
  if (0 <? d)%Z then Ok (repl, d, 0) else
  let n := Z.to_N (- d) in
  if 8 <=? n then let? f := free_atom (n mod 2 ^ 32) in Ok (repl ++ f, 0%Z, n)
  else match padding with
       | None => Ok (repl, d, 0)
       | Some p => let? f := free_atom p in Ok (repl ++ f, (d + Z.of_N p)%Z, p)
       end.
(** 254-296: the free atoms at one end of a list *)
Fixpoint free_run (l : list atom_info) : list atom_info :=
  match l with i :: l => if is_fourcc ($"free") (a_ident i) then i :: free_run l else [] | [] => [] end.
Definition total_len (l : list atom_info) : N := sumN (map a_len l).
(** 299-372: another content between two atoms *)
Definition replace_atoms (top : list catom) (moov : catom) (meta udta : atom_info) (padding : option N) (v : bytes) (start stop : N) (new : bytes)
  : res mp4_error (bytes * N) :=
  let? n := msub (a_len meta) (stop - start) in
  let size := n + lenN new in
  let d := (Z.of_N size - Z.of_N (a_len meta))%Z in
  let? (new, d, pad) := (match new with [] => Ok (new, d, 0) | _ => if (d =? 0)%Z then Ok (new, d, 0) else pad_atom new d padding end) in
  let size := size + pad in
  let? (v, u) :=
    (if size =? a_len meta then Ok (v, a_len udta) else
     let? k := msub (a_len udta) (a_len meta) in
     let? v := write_size (a_start meta) size v in
     let? v := write_size (a_start udta) (k + size) v in Ok (v, k + size)) in
  let? v := (if (d =? 0)%Z then Ok v else update_offsets top moov d start v) in
  let? v := splice start stop new v in Ok (v, u).
(** 211-372: the new content and the new size of [udta] *)
Definition save_to_existing (top : list catom) (moov : catom) (meta udta : atom_info) (ilst : bytes) (m : pmode) (padding : option N)
  (v : bytes) (r : reader) : res mp4_error (bytes * N) :=
  let remove := match ilst with [] => true | _ => false end in
  let? n := msub (a_len meta) 8 in
  let? (idx, tree) := atom_tree v n ($"ilst") m r in
  let replace := replace_atoms top moov meta udta padding v in
  match tree with
  | [] => if remove then Ok (v, a_len udta) else let e := a_start meta + a_len meta in replace e e ilst
  | _ =>
      match nth_error tree (N.to_nat idx) with
      | None => Panic
      | Some old =>
          let stop := a_start old + a_len old in
          if remove then replace (a_start old) stop [] else
          let before := free_run (rev (takeN idx tree)) in
          let start := match rev before with i :: _ => a_start i | [] => a_start old end in
          let available := a_len old + total_len before + total_len (free_run (dropN (idx + 1) tree)) in
          if lenN ilst + 8 <? available then
            let rest := available - lenN ilst in
            if U32_MAX <? rest then Err MTooMuch else
            let? f := free_atom rest in Ok (write_at start (ilst ++ f) v, a_len udta)
          else replace start stop ilst
      end
  end.
(** 32-209 *)
Definition mp4_write (data : bytes) (tag : list atom) (m : pmode) (padding : option N) : res mp4_error (list fop) :=
  let? _u := verify_mp4 data m (atom_reader data) in
  let? top := read_atoms data m in
  match find_top ($"moov") top with
  | None => Err MMissingMoov
  | Some moov =>
      let mi := c_info moov in
      let? ilst := build_ilst tag in
      let remove := match ilst with [] => true | _ => false end in
      let fuel := S (length data) in
      let? (udta, r) := find_child fuel data (a_len mi) ($"udta") m (cursor (a_start mi + header_size mi)) in
      let finish (v : bytes) (old new : N) : res mp4_error (list fop) :=
        let? n := msub (a_len mi) old in
        let? v := write_size (a_start mi) (n + new) v in
        Ok [OpTrunc 0; OpWrite 0 v] in
      match udta with
      | None =>
          if remove then Ok [] else
          let? u := create_udta ilst in
          let? v := splice (a_start mi + 8) (a_start mi + 8) u data in
          finish v 0 (lenN u)
      | Some udta =>
          let? (meta, r) := find_child fuel data (a_len udta) ($"meta") m r in
          match meta with
          | None =>
              if remove then Ok [] else
              let? new := create_meta ilst in
              let? v := write_size (a_start udta) (a_len udta + lenN new) data in
              let? v := splice (a_start udta + 8) (a_start udta + 8) new v in
              finish v (a_len udta) (a_len udta + lenN new)
          | Some meta =>
              let? (_f, r) := meta_is_full data r in
              let? (v, u) := save_to_existing top moov meta udta ilst m padding data r in
              finish v (a_len udta) u
          end
      end
  end.
