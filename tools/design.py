#!/usr/bin/env python3
"""Regenerate the generated sections of DESIGN.md (everything below the marker line) from the model files, MANIFEST.json,
properties.jsonl and tools/assumptions.json (what Print Assumptions lists for each theorem).
With --assume=DIR (a compiled copy of rocq/) the theorems missing from assumptions.json are looked up first."""
import glob, json, os, re, subprocess, sys
root = os.path.dirname(os.path.dirname(os.path.abspath(__file__)))
MARK = "<!-- generated by tools/design.py from here on -->"
claims = json.load(open(root + "/MANIFEST.json"))["claims"]
props = {}
for l in open(root + "/properties.jsonl"):
    d = json.loads(l)
    props[d["id"]] = d
owner = {}
for f in sorted(glob.glob(root + "/rocq/theories/*_Props*.v")):
    for m in re.finditer(r"^Theorem (C\d+_\w+)", open(f).read(), re.M):
        owner[m.group(1)] = os.path.basename(f)[:-2]
apath = root + "/tools/assumptions.json"
assumptions = {k: v for k, v in json.load(open(apath)).items() if k in owner}
base = next((a[9:] for a in sys.argv if a.startswith("--assume=")), None)
missing = [t for c in claims for t in c["theorems"] if t not in assumptions]
if base and missing:
    src = "".join("From Verif Require %s.\n" % m for m in sorted({owner[t] for t in missing}))
    src += "".join("Print Assumptions %s.%s.\n" % (owner[t], t) for t in missing)
    os.makedirs("/tmp/assume", exist_ok=True)
    open("/tmp/assume/PA.v", "w").write(src)
    p = subprocess.run(["coqc", "-q", "-Q", base + "/theories", "Verif", "/tmp/assume/PA.v"], capture_output=True, text=True)
    assert p.returncode == 0, p.stderr
    chunks = re.split(r"(?m)^(?=Closed under the global context|Axioms:)", p.stdout)[1:]
    assert len(chunks) == len(missing)
    for t, c in zip(missing, chunks):
        assumptions[t] = sorted(a for a in re.findall(r"^(\S+)\s*(?::|$)", c, re.M) if a != "Axioms:") if c.startswith("Axioms") else []
    json.dump(assumptions, open(apath, "w"), indent=0, sort_keys=True)
    missing = []
out = [MARK, "", "## 5. Areas of the model", "",
       "The header comment of each model file says what it transcribes and what it leaves out:", ""]
for f in sorted(glob.glob(root + "/rocq/theories/*_Model*.v")):
    head = re.match(r"\(\*\*(.*?)\*\)", open(f).read(), re.S)
    out.append("* **%s** – %s" % (os.path.basename(f), re.sub(r"\s+", " ", head.group(1)).strip()))
out += ["", "## 6. Per property: where it is proved and what was found", "",
        "`_refuted` marks a text that is false of the code (the theorem gives a witness); `_partial` a part or a restricted "
        "form. The way of proof is the same throughout unless the note says otherwise: the Python function is transcribed, "
        "the property is stated over its result for all inputs, and proved by induction over lists, histories or loops.", "",
        "| id | property | status | file | theorems | note |", "|----|----|----|----|----|----|"]
for c in claims:
    p = props[c["property"]]
    files = sorted({owner[t] for t in c["theorems"]})
    cell = lambda s: s.replace("|", "\\|").replace("\n", " ")
    out.append("| %s | %s | %s | %s | %s | %s |" % (c["property"], cell(p["title"]), c["status"], ", ".join(files),
                                                ", ".join(t.split("_", 1)[1] for t in c["theorems"]), cell(c["note"])))
out += ["", "## 7. Assumptions of each theorem", "",
        "As listed by `Print Assumptions` (all are axioms of the standard library; there are none of our own).", ""]
groups = {}
for c in claims:
    for t in c["theorems"]:
        if t in assumptions:
            groups.setdefault(tuple(assumptions[t]), []).append(t)
for ax, ts in sorted(groups.items(), key=lambda g: len(g[0])):
    out += ["**%s** (%d theorems): %s" % (", ".join("`%s`" % a for a in ax) or "Closed under the global context", len(ts), ", ".join(ts)), ""]
if missing:
    out += ["Not looked up yet: " + ", ".join(missing), ""]
path = root + "/DESIGN.md"
text = open(path).read().split(MARK)[0].rstrip() + "\n\n"
open(path, "w").write(text + "\n".join(out))
print(len(claims), "properties;", len(missing), "theorems without assumptions listed")
