#!/usr/bin/env python3
"""Writes DESIGN.md from design_head.md, properties.jsonl, MANIFEST.json and plan.json"""
import json, os
head = open('/verif/tools/design_head.md').read()
props = [json.loads(l) for l in open('/verif/properties.jsonl')]
plan = json.load(open('/verif/tools/plan.json')) if os.path.exists('/verif/tools/plan.json') else {}
man = {}
if os.path.exists('/verif/MANIFEST.json'):
    man = {c['property']: c for c in json.load(open('/verif/MANIFEST.json'))['claims']}
out = [head, "## Per property\n"]
for q in props:
    i = q['id']
    out.append(f"### {i}. {q['title']}\n")
    out.append(plan.get(i, "") + "\n")
    if i in man:
        c = man[i]
        out.append(f"Status: {c['status']}. Theorems: {', '.join('`%s`' % t for t in c['theorems']) or '-'}. {c.get('note','')}\n")
if os.path.exists('/verif/tools/assumptions.md'):
    out.append(open('/verif/tools/assumptions.md').read())
open('/verif/DESIGN.md', 'w').write("\n".join(out))
