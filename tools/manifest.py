#!/usr/bin/env python3
"""Write MANIFEST.json from the theorem names in rocq/theories/P_*.v and tools/notes.json.

A theorem belongs to property Cnn when its name starts with Cnn_.  A property with a
_refuted or _partial theorem, or listed under "partial" in notes.json, is "partial"."""
import json, re, glob, os
root = os.path.dirname(os.path.dirname(os.path.abspath(__file__)))
props = [json.loads(l) for l in open(root + '/properties.jsonl') if l.strip()]
notes = json.load(open(root + '/tools/notes.json'))
thms = {}
for f in sorted(glob.glob(root + '/rocq/theories/P_*.v')):
    for m in re.finditer(r'^Theorem ((C\d+)_\w+)', open(f).read(), re.M):
        thms.setdefault(m.group(2), []).append(m.group(1))
claims = []
for p in props:
    i = p['id']
    n = notes.get(i, {})
    t = thms.get(i, [])
    if t:
        st = n.get('status') or ('partial' if any(x.endswith('_refuted') or x.endswith('_partial') for x in t) else 'proved')
    else:
        st = n.get('status', 'not_applicable')
    claims.append({'property': i, 'status': st, 'theorems': t,
                   'note': n.get('note', '' if t else 'No theorem yet.')})
json.dump({'claims': claims}, open(root + '/MANIFEST.json', 'w'), indent=1, ensure_ascii=False)
print({s: sum(c['status'] == s for c in claims) for s in ('proved', 'partial', 'not_applicable')})
