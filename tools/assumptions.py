#!/usr/bin/env python3
"""Asks Coq for the assumptions of every theorem Cnn_* (needs a built tree) and writes DESIGN.md:
tools/design.md followed by the list."""
import glob, os, re, subprocess
root = os.path.dirname(os.path.dirname(os.path.abspath(__file__)))
th = root + '/rocq/theories'
out = []
closed = total = 0
for f in sorted(glob.glob(th + '/Props_*.v')):
    mod = os.path.basename(f)[:-2]
    names = re.findall(r'^Theorem (C\d\d\w*)', open(f).read(), re.M)
    if not names: continue
    src = f'From Verif Require {mod}.\n' + ''.join(f'Print Assumptions {mod}.{n}.\n' for n in names)
    open('/tmp/PA.v', 'w').write(src)
    r = subprocess.run(['coqc', '-Q', th, 'Verif', '/tmp/PA.v'], capture_output=True, text=True, cwd='/tmp')
    assert r.returncode == 0, r.stderr
    parts = re.findall(r'(Closed under the global context|Axioms:(?:\n.+)+)', r.stdout)
    assert len(parts) == len(names), (mod, len(parts), len(names), r.stdout[:500])
    out.append(f'### {mod}\n')
    bad = [(n, p) for n, p in zip(names, parts) if not p.startswith('Closed')]
    total += len(names); closed += len(names) - len(bad)
    out.append('Closed under the global context: ' + ', '.join(f'`{n}`' for n, p in zip(names, parts) if p.startswith('Closed')) + '\n')
    for n, p in bad: out.append(f'`{n}`: {p}\n')
head = open(root + '/tools/design.md').read()
open(root + '/DESIGN.md', 'w').write(head + f'## 5. Print Assumptions\n\n{closed} of {total} theorems are "Closed under the global context" (generated by `tools/assumptions.py`).\n\n' + '\n'.join(out))
print(closed, total)
