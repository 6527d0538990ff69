#!/usr/bin/env python3
"""Print the assumptions of every theorem of MANIFEST.json, grouped (needs a built rocq directory);
with --design write them into section 6 of DESIGN.md."""
import glob, os, re, subprocess, sys, tempfile

ROOT = os.path.dirname(os.path.dirname(os.path.abspath(__file__)))
groups = {}
with tempfile.TemporaryDirectory() as tmp:
    for f in sorted(glob.glob(os.path.join(ROOT, "rocq", "theories", "P_*.v"))):
        mod = os.path.basename(f)[:-2]
        names = re.findall(r"^Theorem\s+(c\d\d_\w+)", open(f).read(), re.M)
        text = f"From Coq Require Import String.\nFrom Verif Require Import {mod}.\n"
        for n in names:
            text += f'Eval compute in "@@{n}"%string.\nPrint Assumptions {mod}.{n}.\n'
        chk = os.path.join(tmp, "Chk.v")
        open(chk, "w").write(text)
        out = subprocess.run(["coqc", "-Q", os.path.join(ROOT, "rocq", "theories"), "Verif", chk], capture_output=True, text=True)
        if out.returncode:
            raise SystemExit(out.stderr)
        for chunk in out.stdout.split('"@@')[1:]:
            name, rest = chunk.split('"', 1)
            axioms = frozenset(re.findall(r"^([A-Za-z_][\w.]*)\s*(?::|$)", rest.split("Axioms:")[1], re.M)) if "Axioms:" in rest else frozenset()
            groups.setdefault(axioms, []).append(name)
text = ""
for axioms, names in sorted(groups.items(), key=lambda g: len(g[0])):
    text += f"### {', '.join('`%s`' % a for a in sorted(axioms)) or 'Closed under the global context'} ({len(names)} theorems)\n\n"
    text += ", ".join(sorted(names)) + "\n\n"
if "--design" in sys.argv:
    path = os.path.join(ROOT, "DESIGN.md")
    head, mark, _ = open(path).read().partition("Generated by `tools/assumptions.py --design`.\n\n")
    open(path, "w").write(head + mark + text)
else:
    print(text)
