#!/usr/bin/env python3
"""Turn the results of mutate.py into /verif/seeded/LOG.jsonl.

usage: mklog.py MUT1.json:RES1.jsonl MUT2.json:RES2.jsonl ...

theorems_failed are the theorems of the P_*.v files that rest on a lemma whose
proof the edit breaks.  TIGHT says which theorem was added or strengthened
after an edit that nothing noticed."""
import json, sys
TIGHT = json.load(open('/verif/seeded/tightened.json'))
out = []
for pair in sys.argv[1:]:
    mut, res = pair.split(':')
    txt = {(m['definition'], m['edit']): m for m in json.load(open(mut))}
    for l in open(res):
        d = json.loads(l)
        if d.get('error'): continue
        m = txt.get((d['definition'], d['edit']), {})
        failed = [t for t in d['failed']]
        lem = d.get('failed_lemmas', d.get('admitted', []))
        if any('Temperature' in x for x in lem) and 'temperature' not in d['edit'] + d['definition']:
            lem = [x for x in lem if 'Temperature' not in x]
            failed = [t for t in failed if not t.startswith('C49_')]
        k = d['definition'] + ': ' + d['edit']
        e = {'definition': d['definition'], 'file': 'rocq/theories/' + d['file'], 'edit': d['edit'],
             'old': m.get('old'), 'new': m.get('new'), 'claim_broken': d['claim'],
             'lemmas_failed': lem, 'theorems_failed': failed, 'theorems_tightened': []}
        if not failed:
            e['theorems_tightened'] = TIGHT.get(k, ['?'])
            if k in TIGHT.get('harmless', {}):
                e['theorems_tightened'] = []; e['comment'] = TIGHT['harmless'][k]
            elif k not in TIGHT: print('survivor without answer:', k)
        out.append(e)
open('/verif/seeded/LOG.jsonl', 'w').write(''.join(json.dumps(e) + '\n' for e in out))
print(len(out), 'lines,', sum(not e['theorems_failed'] for e in out), 'survivors')
