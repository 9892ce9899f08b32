#!/usr/bin/env python3
"""Rewrite MANIFEST.json from tools/status.json and the theorems in Props_*.v."""
import os, re, json
here = os.path.dirname(os.path.abspath(__file__))
th = here + '/../rocq/theories'
thms = {}
for f in sorted(os.listdir(th)):
    if f.startswith('Props_') and f.endswith('.v'):
        for nm in re.findall(r'^Theorem (C\d+_\w+)', open(th + '/' + f).read(), re.M):
            thms.setdefault(nm.split('_')[0], []).append(nm)
st = json.load(open(here + '/status.json'))
claims = []
for k in sorted(set(st) | set(thms), key=lambda c: int(c[1:])):
    s, note = st.get(k, ['partial', ''])
    claims.append(dict(property=k, status=s, theorems=thms.get(k, []), note=note))
json.dump(dict(claims=claims), open(here + '/../MANIFEST.json', 'w'), indent=1)
missing = [k for k in thms if k not in st]
if missing: print('no status for', missing)
