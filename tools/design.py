#!/usr/bin/env python3
"""Write DESIGN.md from design_head.md, coverage.md, properties.jsonl, MANIFEST.json and the
output of Print Assumptions (compiles the P_*.v files in a temporary directory)."""
import json, os, re, subprocess, sys, tempfile
V = os.path.dirname(os.path.dirname(os.path.abspath(__file__)))
T = V + '/rocq/theories'
props = {}
for l in open(V + '/properties.jsonl'):
    d = json.loads(l); props[d['id']] = d
claims = {c['property']: c for c in json.load(open(V + '/MANIFEST.json'))['claims']}
where, assm = {}, {}
with tempfile.TemporaryDirectory() as tmp:
    for f in sorted(os.listdir(T)):
        if not re.fullmatch(r'P_\w+\.v', f): continue
        s = open(f'{T}/{f}').read()
        names = re.findall(r'^Print Assumptions (\w+)\.', s, re.M)
        open(f'{tmp}/{f}', 'w').write(s)
        r = subprocess.run(['coqc', '-q', '-Q', T, 'Verif', f], cwd=tmp, capture_output=True, text=True)
        blocks = re.findall(r'Closed under the global context|Axioms:\n(?:(?!Axioms:|Closed).+\n)+', r.stdout)
        assert len(blocks) == len(names), (f, len(blocks), len(names), r.stderr[-300:])
        for n, b in zip(names, blocks):
            where[n] = f; assm[n] = 'none' if b.startswith('Closed') else ', '.join(l.split()[0] for l in b.split('\n')[1:] if l and not l.startswith(' '))
find = ''.join(f"* {i} ({props[i]['title']}): {c['note']}\n" for i, c in claims.items() if c['status'] == 'partial')
head = open(V + '/tools/design_head.md').read()
head = head.replace('@@COVERAGE@@', open(V + '/tools/coverage.md').read().strip()).replace('@@FINDINGS@@', find.strip())
out = [head, '\n## 6. Properties and theorems\n\n',
       open(V + '/tools/methods.md').read(),
       '\nThe last column is what `Print Assumptions` lists.\n\n',
       '| Property | Status | Theorem | File | Assumptions |\n|---|---|---|---|---|\n']
for i, c in claims.items():
    for k, n in enumerate(c['theorems']):
        out.append(f"| {i + ' ' + props[i]['title'] if k == 0 else ''} | {c['status'] if k == 0 else ''} | `{n}` | `{where[n]}` | {assm[n]} |\n")
open(V + '/DESIGN.md', 'w').write(''.join(out))
