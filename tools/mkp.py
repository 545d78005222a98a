#!/usr/bin/env python3
"""Generate property files P_<X>.v from <X>Thm.v.

<X>Thm.v holds, after the marker line, lemmas preceded by a comment that
starts with a property id, and examples.  P_<X>.v restates each lemma as a
theorem named <id>_<lemma>, closes it with `exact`, and prints its
assumptions.  Run from /verif/rocq/theories."""
import re, sys, glob, os
for f in sorted(glob.glob('*Thm.v')) if len(sys.argv) < 2 else sys.argv[1:]:
    base = os.path.basename(f)[:-5]
    s = open(f).read()
    head, body = s.split('(* PROPERTIES *)')
    head = re.sub(r'\(\*\*.*?\*\)\n', '', head, count=1, flags=re.S)
    out = [f'(** Property theorems, generated from {base}Thm.v by tools/mkp.py. *)\n', head.strip() + '\n',
           f'From Verif Require Import {base}Thm.\n']
    pos = 0
    cur = None
    tok = re.compile(r'\(\*\*(?P<c>.*?)\*\)|^(?P<k>Lemma|Example|Definition|Inductive|Record|Notation) ', re.S | re.M)
    while True:
        m = tok.search(body, pos)
        if not m: break
        if m.group('c') is not None:
            txt = m.group(0)
            mm = re.match(r'\s*(C\d+)', m.group('c'))
            if mm: cur = mm.group(1)
            out.append('\n' + txt + '\n'); pos = m.end(); continue
        k = m.group('k')
        if k in ('Definition', 'Inductive', 'Record', 'Notation'):
            raise SystemExit(f'{f}: {k} not allowed after marker')
        e = body.index('\nProof.', m.start())
        q = min(x for x in (body.find('Qed.', e), body.find('Defined.', e)) if x >= 0)
        st = body[m.end():e]
        name = re.match(r'\w+', st).group(0)
        assert re.match(r'\w+\s*:', st), f'{f}: {name} has binders'
        if k == 'Lemma':
            assert cur, name
            out.append(f'Theorem {cur}_{st}\nProof. exact {name}. Qed.\nPrint Assumptions {cur}_{name}.\n')
        else:
            out.append(f'Example {cur}_{st}\nProof. exact {name}. Qed.\n')
        pos = q
    open(f'P_{base}.v', 'w').write('\n'.join(out))
