#!/usr/bin/env python3
"""Compile every Prop*.v (after a full build) and write the axioms listed by
Print Assumptions for each theorem to ASSUMPTIONS.md, grouped by axiom set.
With file names as arguments only those are compiled and merged into ASSUMPTIONS.md."""
import os, re, subprocess, sys, glob, tempfile, shutil
root = os.path.dirname(os.path.dirname(os.path.abspath(__file__)))
th = os.path.join(root, 'rocq', 'theories')
groups = {}
total = 0
only = sys.argv[1:]
if only:
    for title, body in re.findall(r'^## (.*)\n\n(.*)$', open(os.path.join(root, 'ASSUMPTIONS.md')).read(), re.M):
        groups[tuple(re.findall(r'`([^`]+)`', title))] = body.split(', ')
        total += len(body.split(', '))
with tempfile.TemporaryDirectory() as d:
    for f in sorted(glob.glob(th + '/Prop*.v')):
        base = os.path.basename(f)
        if base in ('PropellerModel.v', 'PropellerProofs.v', 'PropellerSpec.v') or only and base not in only:
            continue
        src = open(f).read()
        names = re.findall(r'^Print Assumptions (\S+)\.', src, re.M)
        shutil.copy(f, d)
        out = subprocess.run(['coqc', '-Q', th, 'Verif', os.path.join(d, base)], capture_output=True, text=True, check=True).stdout
        blocks = re.split(r'^(?=Closed under the global context|Axioms:)', out, flags=re.M)[1:]
        assert len(blocks) == len(names), (base, len(blocks), len(names))
        for n, b in zip(names, blocks):
            ax = () if b.startswith('Closed') else tuple(sorted(set(re.findall(r'^([A-Za-z_][\w.]*)\s*(?::|$)', b[len('Axioms:'):], re.M))))
            if n in groups.setdefault(ax, []):
                continue
            groups[ax].append(n)
            total += 1
with open(os.path.join(root, 'ASSUMPTIONS.md'), 'w') as o:
    o.write('# Axioms listed by Print Assumptions for each property theorem\n\n')
    o.write('Generated by `tools/assumptions.py` from the output of the Coq compiler; %d theorems.\n' % total)
    for ax in sorted(groups, key=lambda a: (len(a), a)):
        o.write('\n## %s\n\n' % (', '.join('`%s`' % a for a in ax) if ax else 'Closed under the global context (no axioms)'))
        o.write(', '.join(sorted(groups[ax])) + '\n')
print(total, {k: len(v) for k, v in groups.items()})
