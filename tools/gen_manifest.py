#!/usr/bin/env python3
"""Writes MANIFEST.json: theorem names are read off theories/Props*.v (prefix C<nn>_),
status and notes from notes.json."""
import json, re, glob, os
props = [json.loads(l) for l in open('/verif/properties.jsonl')]
notes = json.load(open('/verif/tools/notes.json')) if os.path.exists('/verif/tools/notes.json') else {}
thms = {}
for f in sorted(glob.glob('/verif/rocq/theories/Props*.v')):
    for m in re.finditer(r'^(?:Theorem|Corollary|Lemma) ((C\d\d+)_\w+)', open(f).read(), re.M):
        thms.setdefault(m.group(2), []).append(m.group(1))
claims = []
for q in props:
    i = q['id']
    n = notes.get(i, {})
    t = thms.get(i, [])
    if not t and not n: continue
    st = n.get('status') or ('partial' if any(x.endswith('_partial') for x in t) else 'proved')
    claims.append(dict(property=i, status=st, theorems=t, note=n.get('note', '')))
json.dump(dict(claims=claims), open('/verif/MANIFEST.json', 'w'), indent=1)
print(len(claims), 'claims;', [q['id'] for q in props if q['id'] not in thms])
