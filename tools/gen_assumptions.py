#!/usr/bin/env python3
"""Writes tools/assumptions.md: what Print Assumptions prints below each theorem of Props*.v.
Needs a built tree (rocq/theories/*.vo)."""
import glob, os, re, subprocess, tempfile
os.chdir('/verif/rocq')
rows, kinds = [], {}
for f in sorted(glob.glob('theories/Props*.v')):
    names = re.findall(r'^Print Assumptions (\w+)\.', open(f).read(), re.M)
    with tempfile.TemporaryDirectory() as d:
        t = os.path.join(d, os.path.basename(f))
        open(t, 'w').write(open(f).read())
        out = subprocess.run(['coqc', '-Q', 'theories', 'Verif', t], capture_output=True, text=True, check=True).stdout
    blocks = re.split(r'^(?=Closed under the global context|Axioms:)', out, flags=re.M)
    blocks = [b for b in blocks if b.startswith(('Closed', 'Axioms:'))]
    assert len(blocks) == len(names), (f, len(blocks), len(names))
    for n, b in zip(names, blocks):
        ax = tuple(sorted(re.findall(r'^([\w.]+)\s*:', b.split('Axioms:')[-1], re.M))) if b.startswith('Axioms:') else ()
        rows.append((n, ax)); kinds.setdefault(ax, []).append(n)
out = ["## Assumptions of each theorem\n",
       "As printed by `Print Assumptions` beneath the theorems.\n"]
for ax, ns in sorted(kinds.items(), key=lambda k: len(k[0])):
    out.append(("**No axioms**" if not ax else "**" + ", ".join("`%s`" % a for a in ax) + "**") + f" ({len(ns)} theorems): " + ", ".join(ns) + ".\n")
open('/verif/tools/assumptions.md', 'w').write("\n".join(out))
print(len(rows), "theorems", {k: len(v) for k, v in kinds.items()})
