#!/usr/bin/env python3
"""Single source for properties.jsonl, MANIFEST.json and the per-property section of DESIGN.md.
Run from anywhere: python3 /verif/tools/claims.py"""
import json, os, glob, importlib.util
ROOT = os.path.dirname(os.path.dirname(os.path.abspath(__file__)))
P = []
def prop(id, title, statement, quantifier, why, anchors, plan, status="planned", theorems=(), note=""):
    P.append(dict(id=id, title=title, statement=statement, quantifier=quantifier, why=why,
                  anchors=list(anchors), plan=plan, status=status, theorems=list(theorems), note=note))
for f in sorted(glob.glob(os.path.join(ROOT, "tools", "props_*.py"))):
    exec(compile(open(f).read(), f, "exec"))
def done(id, status, theorems, note=""):
    for p in P:
        if p["id"] == id:
            assert p["status"] == "planned", id + " already has a status"
            p.update(status=status, theorems=list(theorems), note=note); return
    raise SystemExit("unknown property " + id)
for f in sorted(glob.glob(os.path.join(ROOT, "tools", "status_*.py"))):
    exec(compile(open(f).read(), f, "exec"))
import re
src = "".join(open(f).read() for f in glob.glob(os.path.join(ROOT, "rocq", "theories", "*.v")))
for p in P:
    for t in p["theorems"]:
        assert re.search(r"Theorem %s\b" % t, src), "no theorem " + t
    if p["status"] == "proved":
        assert p["theorems"] and not any(t.endswith("_partial") for t in p["theorems"]), p["id"]
P.sort(key=lambda p: int(p["id"][1:]))
ids = [p["id"] for p in P]
assert len(ids) == len(set(ids)), "duplicate ids"
with open(os.path.join(ROOT, "properties.jsonl"), "w") as f:
    for p in P:
        f.write(json.dumps(dict(id=p["id"], title=p["title"], statement=p["statement"],
            quantifier=p["quantifier"], why_tests_cant=p["why"], anchors=p["anchors"])) + "\n")
claims = []
for p in P:
    if p["status"] == "planned": continue
    claims.append(dict(property=p["id"], status=p["status"], theorems=p["theorems"], note=p["note"]))
with open(os.path.join(ROOT, "MANIFEST.json"), "w") as f:
    json.dump(dict(claims=claims), f, indent=1); f.write("\n")
d = open(os.path.join(ROOT, "tools", "design_head.md")).read()
d += "\n## What is modelled\n\nOne line per model file; the comments inside cite the lines function by function. Code not named here is not modelled.\n\n"
for f in sorted(glob.glob(os.path.join(ROOT, "rocq", "theories", "*Model.v"))):
    m = re.match(r"\(\*\*(.*?)\*\)", open(f).read(), re.S)
    d += "* `%s`: %s\n" % (os.path.basename(f), " ".join(m.group(1).split()))
d += "\n## Per-property plan\n\nEvery theorem named below is reported as `Closed under the global context` by `Print Assumptions`.\n\n"
for p in P:
    d += f"### {p['id']} — {p['title']}\n\n"
    d += f"*Status:* {p['status']}. *Theorems:* {', '.join('`'+t+'`' for t in p['theorems']) or '—'}\n\n{p['plan']}\n\n"
    if p["note"]: d += f"*Note:* {p['note']}\n\n"
open(os.path.join(ROOT, "DESIGN.md"), "w").write(d)
print(len(P), "properties;", len(claims), "claims;", len(P)-len(claims), "planned")
