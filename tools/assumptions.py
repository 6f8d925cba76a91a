#!/usr/bin/env python3
"""Write ASSUMPTIONS.md: what Print Assumptions lists for every theorem of MANIFEST.json (run after a build)."""
import json, re, subprocess, os, glob
os.chdir(os.path.join(os.path.dirname(__file__), '..', 'rocq', 'theories'))
thms = [(c['property'], t) for c in json.load(open('../../MANIFEST.json'))['claims'] for t in c['theorems']]
mods = sorted(os.path.basename(f)[:-2] for f in glob.glob('Prop_*.v'))
src = 'From Verif Require ' + ' '.join(mods) + '.\n'
where = {}
for m in mods:
    for t in re.findall(r'^(?:Theorem|Lemma|Example) (\w+)', open(m + '.v').read(), re.M):
        where[t] = m
src += ''.join(f'Print Assumptions {where[t]}.{t}.\n' for _, t in thms)
open('/tmp/assumptions_query.v', 'w').write(src)
out = subprocess.run(['coqc', '-Q', '.', 'Verif', '/tmp/assumptions_query.v'], capture_output=True, text=True)
assert out.returncode == 0, out.stderr
blocks = re.split(r'^(?=Axioms:|Closed under the global context)', out.stdout, flags=re.M)[1:]
assert len(blocks) == len(thms), (len(blocks), len(thms))
short = {}
rows = {}
for (p, t), b in zip(thms, blocks):
    ax = tuple(sorted(x.split('.')[-1] for x in re.findall(r'^([A-Za-z_][\w.]*)\s*(?::|$)', b, re.M) if x != 'Axioms'))
    rows.setdefault(ax, []).append((p, t))
with open('../../ASSUMPTIONS.md', 'w') as f:
    f.write('# Print Assumptions, theorem by theorem\n\nGenerated by tools/assumptions.py. Every axiom below belongs to the Coq standard library.\n')
    for ax in sorted(rows, key=lambda a: (len(a), a)):
        f.write('\n## ' + (', '.join(f'`{a}`' for a in ax) if ax else 'no axioms') + f' ({len(rows[ax])} theorems)\n\n')
        by = {}
        for p, t in rows[ax]: by.setdefault(p, []).append(t)
        for p in by: f.write(f'- {p}: ' + ', '.join(by[p]) + '\n')
for ax in rows: print(len(rows[ax]), ax)
