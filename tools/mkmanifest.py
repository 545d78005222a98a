#!/usr/bin/env python3
"""Write MANIFEST.json from the theorem names in rocq/theories/P_*.v and the
notes in tools/notes.json (property -> [status, note]).  Run from /verif."""
import re, glob, json
props = [json.loads(l)['id'] for l in open('properties.jsonl')]
notes = json.load(open('tools/notes.json'))
thms = {}
for f in sorted(glob.glob('rocq/theories/P_*.v')):
    for n in re.findall(r'^Theorem (\w+)', open(f).read(), re.M):
        thms.setdefault(n.split('_')[0], []).append(n)
claims = []
for p in props:
    st, note = notes.get(p, [None, ''])
    t = thms.get(p, [])
    if st is None:
        st = 'proved' if t else 'partial'
        note = note or ('' if t else 'Not yet proved.')
    claims.append({'property': p, 'status': st, 'theorems': t, 'note': note})
json.dump({'claims': claims}, open('MANIFEST.json', 'w'), indent=1)
open('MANIFEST.json', 'a').write('\n')
print({s: sum(c['status'] == s for c in claims) for s in ('proved', 'partial', 'not_applicable')},
      'unproved:', [c['property'] for c in claims if not c['theorems']])
