#!/usr/bin/env python3
"""Asks Coq for the axioms behind each property theorem (Print Assumptions) and writes
the table in DESIGN.md between its two markers. Needs a finished build in rocq/."""
import collections, glob, os, re, subprocess, sys, tempfile
here = os.path.dirname(os.path.abspath(__file__))
theories = os.path.join(here, "..", "rocq", "theories")
groups = collections.OrderedDict()
total = 0
for path in sorted(glob.glob(os.path.join(theories, "Thm_*.v"))):
    mod = os.path.basename(path)[:-2]
    names = re.findall(r"^Theorem (C\d\d\w*)", open(path).read(), re.M)
    with tempfile.TemporaryDirectory() as d:
        f = os.path.join(d, "A.v")
        open(f, "w").write("From Verif Require Import %s.\n" % mod + "".join("Print Assumptions %s.%s.\n" % (mod, n) for n in names))
        out = subprocess.run(["coqc", "-q", "-w", "none", "-Q", theories, "Verif", f], capture_output=True, text=True, cwd=d)
        assert out.returncode == 0, out.stderr
    parts = re.split(r"^(?=Closed under|Axioms:)", out.stdout, flags=re.M)[1:]
    assert len(parts) == len(names), (mod, len(parts), len(names))
    for n, p in zip(names, parts):
        ax = tuple(sorted(set(re.findall(r"^([\w.]+)\s*(?::|$)", p, re.M)) - {"Axioms"})) if p.startswith("Axioms") else ()
        groups.setdefault(ax, collections.OrderedDict()).setdefault(mod, []).append(n)
        total += 1
lines = ["%d theorems." % total, ""]
for ax, mods in sorted(groups.items()):
    lines += ["**" + ("No axioms (closed under the global context)" if not ax else ", ".join("`%s`" % a for a in ax)) + "** (%d)" % sum(map(len, mods.values())), ""]
    lines += ["* %s: %s" % (m, ", ".join(ns)) for m, ns in mods.items()] + [""]
design = os.path.join(here, "..", "DESIGN.md")
s = open(design).read()
a, b = "<!-- assumptions -->\n", "<!-- end assumptions -->"
assert a in s and b in s
s = s[:s.index(a) + len(a)] + "\n".join(lines) + s[s.index(b):]
open(design, "w").write(s)
print(total, [(len(k), sum(map(len, v.values()))) for k, v in groups.items()])
