#!/usr/bin/env python3
"""Print Assumptions for every theorem of MANIFEST.json (needs a finished build in rocq/)."""
import json, os, re, subprocess, tempfile, collections
here = os.path.dirname(os.path.dirname(os.path.abspath(__file__)))
mods = [l.strip()[9:-2] for l in open(here + '/rocq/_CoqProject') if l.startswith('theories/')]
where = {}
for m in mods:
    for x in re.findall(r'(?:^|[.]\s|\n)\s*(?:Theorem|Lemma|Corollary)\s+([\w\']+)', open(f'{here}/rocq/theories/{m}.v').read()):
        where.setdefault(x, m)
names = [t for c in json.load(open(here + '/MANIFEST.json'))['claims'] for t in c['theorems']]
with tempfile.TemporaryDirectory() as d:
    open(d + '/pa.v', 'w').write('From Verif Require ' + ' '.join(mods) + '.\n' + ''.join(f'Print Assumptions Verif.{where[t]}.{t}.\n' for t in names))
    out = subprocess.run(['coqc', '-Q', here + '/rocq/theories', 'Verif', d + '/pa.v'], capture_output=True, text=True, cwd=d)
print(len(names), 'theorems'); print(collections.Counter((out.stdout + out.stderr).splitlines()))
