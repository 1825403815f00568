#!/usr/bin/env python3
"""Generate theories/Props/Cxx.v from theories/Proofs/Cxx.v.

Every lemma NAME_proof of Proofs/Cxx.v becomes `Theorem NAME`, closed by
`exact NAME_proof`, followed by Print Assumptions; every lemma NAME_example
becomes `Example NAME_example_holds`.  The comment directly above the lemma is kept."""
import re, sys, glob, os
root = os.path.join(os.path.dirname(os.path.abspath(__file__)), '..', 'rocq', 'theories')
proj = os.path.join(root, '..', '_CoqProject')
for f in sorted(glob.glob(os.path.join(root, 'Proofs', 'C[0-9][0-9].v'))):
    s = open(f).read()
    cid = os.path.basename(f)[:-2]
    m = re.match(r'\s*(\(\*\*.*?\*\))?\s*((?:From[^.]*?Require[^.]*?(?:\.[A-Z][^.\s]*)*.*?\.\s*\n)+)', s, re.S)
    head = m.group(1) or ''
    # imports: all lines up to first blank line after the header comment
    body = s[len(m.group(1) or ''):].lstrip('\n')
    imports = body.split('\n\n')[0]
    out = [head, imports.replace('From Verif Require Import', 'From Verif Require Import Proofs.%s' % cid, 1), '']
    pat = re.compile(r'((?:\(\*\*(?:(?!\*\)).)*\*\)\n)?)(Lemma|Theorem) (\w+?)_(proof|example)((?:.(?!\nProof))*.)\nProof', re.S)
    n = 0
    for c, kind, name, k, st in pat.findall(s):
        n += 1
        full = name + '_' + k
        if k == 'proof':
            out.append('%sTheorem %s%s\nProof. exact %s. Qed.\nPrint Assumptions %s.\n' % (c, name, st, full if not st.lstrip()[0] in '({' else '(%s %s)' % (full, ''), name))
        else:
            out.append('%sExample %s_holds%s\nProof. exact %s. Qed.\n' % (c, full, st, full))
    open(os.path.join(root, 'Props', cid + '.v'), 'w').write('\n'.join(out))
    print(cid, n)
L = open(proj).read().split('\n')
L = [x for x in L if x and not re.match(r'theories/(Props|Proofs)/C\d\d\.v', x)]
L += ['theories/Proofs/%s' % os.path.basename(f) for f in sorted(glob.glob(os.path.join(root, 'Proofs', 'C[0-9][0-9].v')))]
L += ['theories/Props/%s' % os.path.basename(f) for f in sorted(glob.glob(os.path.join(root, 'Props', 'C[0-9][0-9].v')))]
open(proj, 'w').write('\n'.join(L) + '\n')
