#!/usr/bin/env python3
"""Write DESIGN.md from tools/design_head.md, tools/plan.json, properties.jsonl,
tools/design_tail.md and the output of Print Assumptions.  Run from /verif
after a build; with -a the P_*.v files are recompiled to collect the
assumptions (kept in tools/assumptions.json), with -n only those with new
theorems."""
import json, re, glob, subprocess, sys, os
from concurrent.futures import ThreadPoolExecutor
props = [json.loads(l) for l in open('properties.jsonl')]
plan = json.load(open('tools/plan.json'))
man = {c['property']: c for c in json.load(open('MANIFEST.json'))['claims']}
if '-a' in sys.argv or '-n' in sys.argv:
    def one(f):
        names = re.findall(r'^Print Assumptions (\w+)\.', open(f).read(), re.M)
        out = subprocess.run(['coqc', '-q', '-Q', 'rocq/theories', 'Verif', f, '-o', '/tmp/' + os.path.basename(f) + 'o'], capture_output=True, text=True).stdout
        blocks = re.split(r'^(?=Closed under the global context|Axioms:)', out, flags=re.M)[1:]
        assert len(blocks) == len(names), (f, len(blocks), len(names))
        return {n: [] if b.startswith('Closed') else sorted(re.findall(r'^(\w[\w.]*)\s*(?::|$)', b.split('\n', 1)[1], re.M)) for n, b in zip(names, blocks)}
    res = {} if '-a' in sys.argv else json.load(open('tools/assumptions.json'))
    names = lambda f: re.findall(r'^Print Assumptions (\w+)\.', open(f).read(), re.M)
    files = [f for f in sorted(glob.glob('rocq/theories/P_*.v')) if any(n not in res for n in names(f))]
    res = {n: a for n, a in res.items() if any(n in names(f) for f in glob.glob('rocq/theories/P_*.v'))}
    with ThreadPoolExecutor(3) as ex:
        for r in ex.map(one, files): res.update(r)
    json.dump(res, open('tools/assumptions.json', 'w'), indent=0, sort_keys=True)
ass = json.load(open('tools/assumptions.json'))
groups = {}
for n, a in ass.items(): groups.setdefault(tuple(a), []).append(n)
text = ''
for a, ns in sorted(groups.items(), key=lambda x: len(x[0])):
    text += (f'No axioms at all ("Closed under the global context"), {len(ns)} theorems: ' if not a else
             f'{len(a)} axioms ({", ".join("`" + x.split(".")[-1] + "`" for x in a)}), {len(ns)} theorems: ')
    text += ', '.join(sorted(ns)) + '.\n\n'
find = ''
for p in props:
    m = re.search(r'(A user expects.*?)(?=$)', p['statement'])
    r = [t for t in man[p['id']]['theorems'] if 'refuted' in t]
    if m or r: find += f"* **{p['id']}** {m.group(1) if m else p['statement']}{' (' + ', '.join('`' + t + '`' for t in r) + ')' if r else ''}\n"
out = open('tools/design_head.md').read() + '## 2. Properties and plan\n\nThe statements are in `properties.jsonl`, the theorems of each in `MANIFEST.json`.\n\n'
for p in props:
    out += f"* **{p['id']}** {p['title']}: {plan[p['id']]}\n"
out += '\n' + open('tools/design_tail.md').read().replace('@FINDINGS@', find.rstrip()).replace('@ASSUMPTIONS@', text.rstrip())
open('DESIGN.md', 'w').write(out)
missing = [t for c in man.values() for t in c['theorems'] if t not in ass]
print('theorems without recorded assumptions:', missing)
