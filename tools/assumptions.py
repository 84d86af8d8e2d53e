#!/usr/bin/env python3
"""Prints, for every theorem of MANIFEST.json, what Print Assumptions lists (needs a built tree)."""
import glob, json, os, re, subprocess, tempfile
ROOT = os.path.dirname(os.path.dirname(os.path.abspath(__file__)))
names = [t for c in json.load(open(ROOT + "/MANIFEST.json"))["claims"] for t in c["theorems"]]
where = {}
for f in sorted(glob.glob(ROOT + "/rocq/theories/*.v")):
    for n in re.findall(r"^(?:Theorem|Lemma|Corollary|Proposition|Fact|Remark)\s+([\w']+)", open(f).read(), re.M):
        where.setdefault(n, os.path.basename(f)[:-2])
src = "".join("From Verif Require %s.\n" % m for m in sorted({where[n] for n in names}))
for n in names:
    src += 'Goal True. idtac "@@ %s". exact I. Qed.\nPrint Assumptions Verif.%s.%s.\n' % (n, where[n], n)
d = tempfile.mkdtemp(); p = d + "/A.v"; open(p, "w").write(src)
out = subprocess.run(["coqc", "-Q", ROOT + "/rocq/theories", "Verif", p], capture_output=True, text=True).stdout
groups = {}
for blk in out.split("@@ ")[1:]:
    n, rest = blk.split("\n", 1)
    ax = tuple(sorted(set(re.findall(r"^([A-Za-z_][\w.]*)\s*(?=:)", rest, re.M)) - {"Axioms"}))
    groups.setdefault(ax, []).append(n)
for ax, ns in groups.items():
    print("* " + (", ".join("`%s`" % a for a in ax) or "closed under the global context") + " (%d):" % len(ns))
    print("  " + ", ".join(ns))
