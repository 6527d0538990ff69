#!/usr/bin/env python3
"""List the definitions of the model files M_*.v that have no comment of their own citing lines of the code."""
import glob, os, re, sys

ROOT = os.path.dirname(os.path.dirname(os.path.abspath(__file__)))
HEAD = re.compile(r"^\s*(?:Local |#\[\w+\]\s*)?(Definition|Fixpoint|Record|Inductive|Variable|Variables|Notation|Function|CoInductive|with)\s+\(?(\w+)", re.M)
bad = 0
for f in sorted(glob.glob(os.path.join(ROOT, "rocq", "theories", "M_*.v"))):
    text = open(f).read()
    # a character belongs to a comment if the depth there is positive
    depth, inside, i = 0, [False] * (len(text) + 1), 0
    while i < len(text):
        if text.startswith("(*", i):
            depth += 1
        inside[i] = depth > 0
        if text.startswith("*)", i) and depth:
            inside[i + 1] = True
            depth -= 1
            i += 2
            continue
        i += 1
    for m in HEAD.finditer(text):
        if inside[m.start(1)] or m.group(1) == "with" and not re.match(r"with\s+\w+\s*[:(]", text[m.start(1):]):
            continue
        before = text[:m.start(1)].rstrip()
        before = re.sub(r"(Local|#\[\w+\])$", "", before).rstrip()
        comment = ""
        if before.endswith("*)"):
            comment = before[before.rfind("(*"):]
        if not re.search(r"\.py:\d+|NGSolve|Python", comment):
            bad += 1
            print(f"{os.path.basename(f)}:{text.count(chr(10), 0, m.start(1)) + 1} {m.group(1)} {m.group(2)}  {'(comment without lines)' if comment else '(no comment)'}")
print(bad, "definitions without citation")
sys.exit(bad > 0)
