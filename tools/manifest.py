#!/usr/bin/env python3
"""Regenerate MANIFEST.json from the theorem names in rocq/theories/*_Props*.v and tools/notes.json.

notes.json maps a property id to {"status": ..., "note": ...}; status defaults to "partial" when
one of the theorems of the property ends in _partial or _refuted, and to "proved" otherwise."""
import glob, json, re, os
root = os.path.dirname(os.path.dirname(os.path.abspath(__file__)))
thms = {}
for f in sorted(glob.glob(root + "/rocq/theories/*_Props*.v")):
    for m in re.finditer(r"^Theorem (C\d+)(_\w+)", open(f).read(), re.M):
        thms.setdefault(m.group(1), []).append(m.group(1) + m.group(2))
notes = json.load(open(root + "/tools/notes.json"))
ids = [json.loads(l)["id"] for l in open(root + "/properties.jsonl")]
claims = []
for i in ids:
    t = thms.pop(i, [])
    n = notes.get(i, {})
    if not t:
        st = "not_applicable"
    elif any(x.endswith(("_partial", "_refuted")) for x in t):
        st = "partial"
    else:
        st = "proved"
    claims.append({"property": i, "status": n.get("status", st), "theorems": t,
                   "note": n.get("note", "" if t else "not modelled yet")})
assert not thms, thms
json.dump({"claims": claims}, open(root + "/MANIFEST.json", "w"), indent=1)
print({s: sum(c["status"] == s for c in claims) for s in ("proved", "partial", "not_applicable")})
