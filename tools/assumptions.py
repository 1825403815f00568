#!/usr/bin/env python3
"""Write ASSUMPTIONS.md: what Print Assumptions lists for each theorem of theories/Props.
Needs a finished build in rocq/."""
import glob, os, re, subprocess, tempfile
root = os.path.dirname(os.path.dirname(os.path.abspath(__file__)))
os.chdir(os.path.join(root, 'rocq'))
flags = []
for line in open('_CoqProject'):
    if line.startswith(('-Q', '-R')):
        flags += line.split()
rows = []
for path in sorted(glob.glob('theories/Props/C*.v')):
    names = re.findall(r'^Print Assumptions (\w+)\.', open(path).read(), re.M)
    with tempfile.TemporaryDirectory() as d:
        out = subprocess.run(['coqc', '-q', '-w', 'none'] + flags + ['-o', os.path.join(d, os.path.basename(path) + 'o'), path],
                             capture_output=True, text=True)
    assert out.returncode == 0, (path, out.stderr[-500:])
    blocks = re.split(r'^(?=Closed under the global context|Axioms:)', out.stdout, flags=re.M)[1:]
    assert len(blocks) == len(names), (path, len(blocks), len(names))
    for name, block in zip(names, blocks):
        found = re.findall(r'^([A-Za-z_][\w.]*)\s*(?::|$)', block, re.M)
        rows.append((name, [a for a in found if a not in ('Closed', 'Axioms')]))
with open(os.path.join(root, 'ASSUMPTIONS.md'), 'w') as f:
    f.write('# Axioms of each theorem\n\nGenerated by tools/assumptions.py from Print Assumptions. A dash: closed under the\nglobal context.\n\n')
    f.write('| Theorem | Axioms |\n|---|---|\n')
    for name, ax in rows:
        f.write('| %s | %s |\n' % (name, ', '.join(a for a in sorted(set(ax))) or '-'))
print(len(rows), sorted({a for _, ax in rows for a in ax}))
