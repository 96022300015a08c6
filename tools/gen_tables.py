#!/usr/bin/env python3
"""Generate rocq/theories/HyphEnUs.v and HyphLatin.v from the pattern tables in /repo."""
import re, os
root = os.path.dirname(os.path.dirname(os.path.abspath(__file__)))
for go, var, mod, name in (('en-us.go', 'enUsPatterns', 'HyphEnUs', 'en_us'), ('latin.go', 'latinPatterns', 'HyphLatin', 'latin')):
    src = open('/repo/hyphenation/' + go, encoding='utf8').read()
    m = re.search(r'var %s = `([^`]*)`' % var, src)
    first = src[:m.start()].count('\n') + 1
    last = src[:m.end()].count('\n') + 1
    assert '\r' not in m.group(1) and '"' not in m.group(1)
    lines = m.group(1).split('\n')
    assert lines[-1] == ''
    lines = lines[:-1]            # text = every line followed by LF
    out = ['(** Generated by tools/gen_tables.py: the raw string literal %s' % var,
           '    (hyphenation/%s:%d-%d), split at line feeds. *)' % (go, first, last),
           'From Coq Require Import List String.', 'Import ListNotations.', 'Local Open Scope string_scope.', '']
    chunk = 500
    n = 0
    for i in range(0, len(lines), chunk):
        body = ';\n'.join('"%s"' % l for l in lines[i:i + chunk])
        out.append('Definition %s_%d : list string := [\n%s].' % (name, n, body))
        n += 1
    out.append('Definition %s_lines : list string :=\n  %s.' % (name, ' ++ '.join('%s_%d' % (name, k) for k in range(n)) if n > 1 else name + '_0'))
    out[-1] = out[-1].replace(' ++ ', ' ++ ').replace(':=\n  ', ':=\n  (').rstrip('.') + ')%list.'
    open(root + '/rocq/theories/%s.v' % mod, 'w', encoding='utf8').write('\n'.join(out) + '\n')
    print(mod, len(lines))
