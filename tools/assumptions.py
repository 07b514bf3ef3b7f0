#!/usr/bin/env python3
"""Writes ASSUMPTIONS.md: what Print Assumptions lists for every property theorem.
Run in a built tree: recompiles each P_*.v (output to /tmp) and parses what coqc prints."""
import glob, os, re, subprocess, sys
root = os.path.dirname(os.path.dirname(os.path.abspath(__file__)))
th = os.path.join(root, 'rocq', 'theories')
rows = {}
from concurrent.futures import ThreadPoolExecutor
def work(f):
    names = re.findall(r'^Print Assumptions (\w+)\.', open(f).read(), re.M)
    out = subprocess.run(['coqc', '-R', th, 'Verif', '-o', '/tmp/' + os.path.basename(f) + 'o', f], capture_output=True, text=True).stdout
    blocks = re.split(r'^(?=Axioms:|Closed under the global context)', out, flags=re.M)[1:]
    assert len(blocks) == len(names), (f, len(blocks), len(names))
    r = {}
    for n, b in zip(names, blocks):
        if b.startswith('Closed'):
            r[n] = []
        else:
            ax = [re.match(r'[\w.]+', l).group(0) for l in b.split('\n')[1:] if l and not l[0].isspace()]
            r[n] = sorted('FunctionalExtensionality.' + x if x == 'functional_extensionality_dep' else x for x in ax)
    return r
with ThreadPoolExecutor(4) as ex:
    for r in ex.map(work, sorted(glob.glob(th + '/P_*.v'))):
        rows.update(r)
groups = {}
for n, a in rows.items():
    groups.setdefault(tuple(a), []).append(n)
with open(os.path.join(root, 'ASSUMPTIONS.md'), 'w') as o:
    o.write('# What Print Assumptions lists for each property theorem\n\nGenerated by tools/assumptions.py. %d theorems.\n' % len(rows))
    for a in sorted(groups, key=lambda x: (len(x), x)):
        o.write('\n## ' + (', '.join('`%s`' % x for x in a) if a else 'Closed under the global context (no axioms)') + '\n\n')
        o.write(', '.join(sorted(groups[a])) + '\n')
print(len(rows), [(len(a), len(g), a) for a, g in groups.items()])
