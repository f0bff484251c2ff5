#!/usr/bin/env python3
"""Transcribes the tables of lofty/src/tag/item.rs into theories/ItemKeyModel.v (text to text)."""
import re
src = open("/repo/lofty/src/tag/item.rs").read()
lines = src.split("\n")
def lineno(pos): return src.count("\n", 0, pos) + 1
# variants
k0 = src.index("KEYS => [", src.index("gen_item_keys!(\n")) ; k1 = src.index("\n\t]\n);", k0)
variants = []
for l in src[k0:k1].split("\n")[1:]:
    l = re.sub(r"//.*", "", l).strip()
    if not l or l.startswith("#"): continue
    m = re.fullmatch(r"(\w+),?", l); assert m, l
    variants.append(m.group(1))
out = []
w = out.append
w("(** Model of lofty/src/tag/item.rs: the keys and the mapping tables, transcribed by tools/gen_itemkey.py. *)")
w("From Verif Require Export Base Str TextModel TagType.\n")
w("(** lines %d-%d *)" % (lineno(k0), lineno(k1)))
w("Inductive item_key : Set :=")
for i in range(0, len(variants), 6): w("| " + " | ".join("K" + v for v in variants[i:i+6]))
out[-1] += "."
w("Definition ik_index (k : item_key) : N :=\n  match k with")
for i, v in enumerate(variants): w("  | K%s => %d" % (v, i))
w("  end.")
w("Definition all_keys : list item_key :=\n  [" + ";\n   ".join("; ".join("K" + v for v in variants[i:i+6]) for i in range(0, len(variants), 6)) + "].")
w("Definition ik_eqb (a b : item_key) : bool := ik_index a =? ik_index b.\n")
w("(** One row of [gen_map!]: its format keys and its variants. *)\nDefinition row : Type := (list str * list item_key)%type.\n")
def lit(s):
    m = re.match(r"\\u\{(\w+)\}(.*)", s)
    if m: return '(%d :: $"%s")' % (int(m.group(1), 16), m.group(2))
    return '$"%s"' % s
names = {"AIFF_TEXT_MAP": "aiff_text_map", "APE_MAP": "ape_map", "ID3V2_MAP": "id3v2_map", "ILST_MAP": "ilst_map", "RIFF_INFO_MAP": "riff_info_map", "VORBIS_MAP": "vorbis_map"}
for m in re.finditer(r"gen_map!\(\n\t(\w+);\n(.*?)\n\);", src, re.S):
    name, body = m.group(1), m.group(2)
    w("(** lines %d-%d *)" % (lineno(m.start()), lineno(m.end())))
    rows = []
    for l in body.split("\n"):
        l = l.strip()
        if not l or l.startswith("//"): continue
        r = re.match(r'((?:"[^"]*"\s*\|?\s*)+)=>\s*([\w\s|]+?)\s*,?\s*(?://.*)?$', l); assert r, l
        keys = re.findall(r'"([^"]*)"', r.group(1)); vs = [x.strip() for x in r.group(2).split("|")]
        for v in vs: assert v in variants, v
        rows.append("([%s], [%s])" % ("; ".join(map(lit, keys)), "; ".join("K" + v for v in vs)))
    w("Definition %s : list row :=\n  [%s].\n" % (names[name], ";\n   ".join(rows)))
w("""(** lines 533-545: the table of a tag type; Id3v1 has none. *)
Definition table (tt : tag_type) : list row :=
  match tt with
  | AiffText => aiff_text_map | Ape => ape_map | Id3v2 => id3v2_map | Mp4Ilst => ilst_map
  | RiffInfo => riff_info_map | VorbisComments => vorbis_map | Id3v1 => []
  end.

(** [HashMap::insert] on an association list (newest first, one entry per key). *)
Fixpoint map_remove (s : str) (m : list (str * list item_key)) : list (str * list item_key) :=
  match m with
  | [] => []
  | (s', v) :: m' => if list_eqb s s' then map_remove s m' else (s', v) :: map_remove s m'
  end.
Definition map_insert (s : str) (v : list item_key) (m : list (str * list item_key)) := (s, v) :: map_remove s m.
(** lines 54-64: [INSTANCE] *)
Definition instance (t : list row) : list (str * list item_key) :=
  fold_left (fun m r => fold_left (fun m s => map_insert s (snd r) m) (fst r) m) t [].

(** line 65: [iter().find(..).map(|(_, v)| v[0])]. A HashMap is iterated in an unspecified order: [order] is the
    order in which the entries come. *)
Definition get_item_key (order : list (str * list item_key)) (s : str) : option item_key :=
  match find (fun e => eq_ignore_case (fst e) s) order with
  | Some (_, v) => hd_error v
  | None => None
  end.

(** lines 68-75: the first row that has the variant, and its first key. *)
Definition get_key (t : list row) (k : item_key) : option str :=
  match find (fun r => existsb (ik_eqb k) (snd r)) t with
  | Some (s :: _, _) => Some s
  | _ => None
  end.

(** lines 503-529; [from_key] for the order of [instance] (any order gives the same: C24). *)
Definition map_key (tt : tag_type) (k : item_key) : option str := get_key (table tt) k.
Definition from_key (tt : tag_type) (s : str) : option item_key := get_item_key (instance (table tt)) s.
""")
open("/verif/rocq/theories/ItemKeyModel.v", "w").write("\n".join(out))
print(len(variants), "variants")
