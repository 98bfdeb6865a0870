#!/usr/bin/env python3
"""Rebuild the generated part of DESIGN.md (below the marker line): one section
per property, and the axioms `Print Assumptions` lists for each theorem.  The
Coq files must have been built; run after tools/manifest.py."""
import collections, glob, json, os, re, subprocess, tempfile
root = os.path.dirname(os.path.dirname(os.path.abspath(__file__)))
props = [json.loads(l) for l in open(f"{root}/properties.jsonl")]
claims = {c["property"]: c for c in json.load(open(f"{root}/MANIFEST.json"))["claims"]}
where = {}
for f in sorted(glob.glob(f"{root}/rocq/theories/*Props*.v")):
    for m in re.finditer(r"^\s*(Theorem|Example)\s+(C\d\d\d?_\w+)", open(f).read(), re.M):
        where[m.group(2)] = os.path.basename(f)[:-2]
names = [t for c in claims.values() for t in c["theorems"]]
mods = sorted({where[t] for t in names})
with tempfile.TemporaryDirectory() as d:
    src = "From Verif Require " + " ".join(mods) + ".\n"
    for t in names:
        src += f'Eval compute in ("{t}")%string.\nPrint Assumptions Verif.{where[t]}.{t}.\n'
    open(f"{d}/Q.v", "w").write("From Coq Require Import String.\n" + src)
    out = subprocess.run(["coqc", "-Q", f"{root}/rocq/theories", "Verif", f"{d}/Q.v"], capture_output=True, text=True)
    assert out.returncode == 0, out.stderr
axioms = collections.OrderedDict()
cur = None
for line in out.stdout.split("\n"):
    m = re.match(r'\s*= "(C\d+_\w+)"', line)
    if m:
        cur = m.group(1); axioms[cur] = []
    elif cur and re.match(r"^[A-Za-z_][\w.]*( :|$)", line) and not line.startswith(("Closed", "Axioms", "Section")):
        axioms[cur].append(line.split(" ")[0].split(".")[-1])
assert len(axioms) == len(names), (len(axioms), len(names))
marker = "<!-- generated by tools/design.py from here on -->\n"
head = open(f"{root}/DESIGN.md").read().split(marker)[0]
s = marker + "\n## Property by property\n"
for p in props:
    c = claims.get(p["id"], {"status": "open", "theorems": [], "note": ""})
    s += f"\n### {p['id']} {p['title']} ({c['status']})\n\n{p['statement']}\n\nCode: {', '.join(p['anchors'])}.\n"
    by = collections.OrderedDict()
    for t in c["theorems"]:
        by.setdefault(where[t], []).append(t)
    for f, ts in by.items():
        s += f"\n`theories/{f}.v`: " + ", ".join(f"`{t}`" for t in ts) + ".\n"
    ex = [e for e in where if e.startswith(p["id"] + "_") and e not in c["theorems"]]
    if ex:
        s += "\nInstances: " + ", ".join(f"`{e}`" for e in ex) + ".\n"
    if c["note"]:
        s += f"\n{c['note']}\n"
s += "\n## Axioms of each theorem (`Print Assumptions`)\n\n"
groups = collections.OrderedDict()
for t, a in axioms.items():
    groups.setdefault(tuple(sorted(set(a))), []).append(t)
for a, ts in sorted(groups.items(), key=lambda g: len(g[0])):
    s += (f"**No axioms** ({len(ts)} theorems):\n" if not a else "**" + ", ".join(f"`{x}`" for x in a) + f"** ({len(ts)} theorems):\n")
    s += ", ".join(f"`{t}`" for t in ts) + ".\n\n"
open(f"{root}/DESIGN.md", "w").write(head + s.rstrip("\n") + "\n")
print(len(names), "theorems;", {" ".join(k) or "none": len(v) for k, v in groups.items()})
