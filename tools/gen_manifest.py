#!/usr/bin/env python3
"""Regenerate MANIFEST.json: theorem names are collected from the Prop_*.v files by their C.._ prefix."""
import json, re, glob, os
root = os.path.dirname(os.path.dirname(os.path.abspath(__file__)))
meta = json.load(open(os.path.join(root, 'tools', 'claims.json')))
thms = {}
for f in sorted(glob.glob(os.path.join(root, 'rocq/theories/*/Prop_*.v'))):
    for m in re.finditer(r'^Theorem (C(\d\d)_\w+)', open(f).read(), re.M):
        thms.setdefault('C' + m.group(2), []).append(m.group(1))
claims = []
for line in open(os.path.join(root, 'properties.jsonl')):
    i = json.loads(line)['id']
    d = meta.get(i, {})
    t = thms.get(i, [])
    status = d.get('status', 'partial')
    note = d.get('note', '')
    if not t and status != 'not_applicable':
        status, note = 'partial', note or 'no theorem yet'
    claims.append({"property": i, "status": status, "theorems": t, "note": note})
json.dump({"claims": claims}, open(os.path.join(root, 'MANIFEST.json'), 'w'), indent=1)
print({s: sum(c['status'] == s for c in claims) for s in ('proved', 'partial', 'not_applicable')},
      'without theorem:', [c['property'] for c in claims if not c['theorems']])
