#!/usr/bin/env python3
"""Mutation-test the theorems: apply one edit to a model file in a scratch copy, recompile everything that
depends on it, and report which theorems no longer go through.

usage: mutate.py seeded/area.json [name ...]
The json file is a list of {"name", "file", "definition", "edit": [old, new], "claim", "breaks": [property ids]}.
When a lemma fails in the scratch copy it is admitted there, so that the search continues; a property theorem
counts as failed when it was admitted or when Print Assumptions shows that it uses an admitted lemma.
One line per mutation is appended to seeded/LOG.jsonl (unless --dry)."""
import json, os, re, shutil, subprocess, sys
root = os.path.dirname(os.path.dirname(os.path.abspath(__file__)))
dry = "--dry" in sys.argv
args = [a for a in sys.argv[1:] if not a.startswith("--")]
base = next((a[7:] for a in sys.argv if a.startswith("--base=")), root + "/rocq")  # a compiled copy of rocq/
work = "/tmp/mut_%d" % os.getpid()
files = [l.strip() for l in open(base + "/_CoqProject") if l.strip().endswith(".v")]
mods = [os.path.basename(f)[:-2] for f in files]

def requires(src):
    out = set()
    for m in re.finditer(r"From Verif Require (?:Import|Export)?\s*([\w\s]+)\.", src):
        out |= set(m.group(1).split())
    return out

def compile_admitting(mod):
    path = "%s/theories/%s.v" % (work, mod)
    admitted = []
    for _ in range(80):
        p = subprocess.run(["timeout", "300", "coqc", "-q", "-Q", "theories", "Verif", path], cwd=work, capture_output=True, text=True)
        if p.returncode == 0:
            return admitted, p.stdout
        m = None
        for m in re.finditer(r'line (\d+), characters', p.stderr):
            pass
        if p.returncode == 124:
            return admitted + ["TIMEOUT"], ""
        if not m:
            return admitted + ["UNKNOWN " + p.stderr[-300:]], ""
        ln = int(m.group(1))
        lines = open(path).read().split("\n")
        # find the statement that starts the enclosing proof
        i = ln - 1
        while i >= 0 and not re.match(r"\s*(Lemma|Theorem|Example|Corollary|Fact|Remark|Definition|Fixpoint|Section|Record)\b", lines[i]):
            i -= 1
        mm = re.match(r"\s*(Lemma|Theorem|Example|Corollary|Fact|Remark)\s+(\w+)", lines[i]) if i >= 0 else None
        if not mm:
            return admitted + ["DEFINITION line %d: %s" % (ln, p.stderr[-400:])], ""
        j = i
        while "Proof" not in lines[j]:
            j += 1
        k = j
        while "Qed." not in lines[k] and "Defined." not in lines[k]:
            k += 1
        if ln - 1 < j:
            return admitted + ["STATEMENT line %d: %s" % (ln, p.stderr[-400:])], ""
        rest = re.split(r"(?:Qed|Defined)\.", lines[k], 1)[1]
        head = lines[j][:lines[j].index("Proof")]
        lines[j:k + 1] = [head + "Admitted." + rest] + [""] * (k - j)
        open(path, "w").write("\n".join(lines))
        admitted.append(mm.group(2))
    return admitted + ["TOOMANY"], ""

def run(mut):
    shutil.rmtree(work, ignore_errors=True)
    shutil.copytree(base, work)
    path = work + "/theories/" + mut["file"]
    src = open(path).read()
    edits = mut["edit"] if isinstance(mut["edit"][0], list) else [mut["edit"]]
    for old, new in edits:
        assert src.count(old) == 1, (mut["name"], src.count(old), old)
        src = src.replace(old, new)
    open(path, "w").write(src)
    dirty, failed, admitted_all = {mut["file"][:-2]}, [], set()
    lemmas, fatal = [], []
    for mod in mods:
        s = open("%s/theories/%s.v" % (work, mod)).read()
        if mod not in dirty and not (requires(s) & dirty):
            continue
        dirty.add(mod)
        adm, out = compile_admitting(mod)
        bad = [a for a in adm if " " in a or a in ("TIMEOUT", "TOOMANY")]
        admitted_all |= set(adm)
        lemmas += adm
        if bad:
            fatal += ["%s: %s" % (mod, b) for b in bad]
            break
        if "_Props" in mod:
            names = re.findall(r"^Print Assumptions (\w+)\.", s, re.M)
            chunks = re.split(r"(?m)^(?=Closed under the global context|Axioms:)", out)[1:]
            if len(chunks) != len(names):
                fatal.append("%s: %d chunks for %d names" % (mod, len(chunks), len(names)))
            for n, c in zip(names, chunks):
                if n in adm or any(re.search(r"\b%s\b" % re.escape(a), c) for a in admitted_all):
                    failed.append(n)
            failed += [a for a in adm if a not in failed and re.match(r"C\d+", a)]
    return failed, lemmas, fatal

muts = json.load(open(args[0]))
for mut in muts:
    if len(args) > 1 and mut["name"] not in args[1:]:
        continue
    failed, lemmas, fatal = run(mut)
    hit = [p for p in mut["breaks"] if any(f.startswith(p + "_") and "_case" not in f for f in failed)]
    missed = [p for p in mut["breaks"] if p not in hit]
    status = "FATAL" if fatal else ("MISSED " + ",".join(missed) if missed else "caught")
    print(mut["name"], status, [f for f in failed if "_case" not in f], fatal[:2], flush=True)
    if not dry and not fatal:
        edits = mut["edit"] if isinstance(mut["edit"][0], list) else [mut["edit"]]
        rec = {"definition": mut["file"] + ": " + mut["definition"], "edit": " ; ".join("%s  ==>  %s" % (a, b) for a, b in edits),
               "claim": mut["claim"], "theorems_failed": failed, "theorems_tightened": mut.get("tightened", [])}
        if missed:
            rec["missed"] = missed
        if mut.get("note"):
            rec["note"] = mut["note"]
        open(root + "/seeded/LOG.jsonl", "a").write(json.dumps(rec) + "\n")
shutil.rmtree(work, ignore_errors=True)
