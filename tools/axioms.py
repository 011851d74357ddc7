#!/usr/bin/env python3
"""Rewrite the list of axioms per theorem in DESIGN.md.

Compiles every Props*.v (the development must be built) and collects what
Print Assumptions prints.  Not part of the build.
"""
import glob, os, re, subprocess, tempfile
root = os.path.join(os.path.dirname(os.path.abspath(__file__)), '..')
th = os.path.join(root, 'rocq', 'theories')
sets = {}
for f in sorted(glob.glob(os.path.join(th, 'Props*.v'))):
    thms = re.findall(r'Print Assumptions (\w+)', open(f).read())
    with tempfile.TemporaryDirectory() as d:
        out = subprocess.run(['coqc', '-Q', th, 'Verif', '-o', os.path.join(d, os.path.basename(f) + 'o'), f],
                             stdout=subprocess.PIPE, stderr=subprocess.STDOUT, text=True).stdout
    blocks = re.split(r'^(?=Axioms:|Closed under)', out, flags=re.M)[1:]
    assert len(blocks) == len(thms), (f, len(blocks), len(thms), out[-300:])
    for t, b in zip(thms, blocks):
        ax = sorted({m.group(1) for m in re.finditer(r'^([A-Za-z_][\w.\']*)\s*(?::|$)', b, re.M)} - {'Axioms', 'Closed'})
        sets.setdefault(tuple(ax), []).append(t)
lines = []
for ax, ts in sorted(sets.items(), key=lambda x: len(x[0])):
    lines.append('* %s:\n  %s.' % (', '.join('`%s`' % a for a in ax) or 'no axioms (closed under the global context)', ', '.join(sorted(ts))))
p = os.path.join(root, 'DESIGN.md')
s = open(p).read()
a, b = '<!-- axioms -->', '<!-- end axioms -->'
i, j = s.index(a) + len(a), s.index(b)
open(p, 'w').write(s[:i] + '\n' + '\n'.join(lines) + '\n' + s[j:])
