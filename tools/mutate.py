#!/usr/bin/env python3
"""Test the theorems against wrong programs.

usage: mutate.py MUTATIONS.json OUT.jsonl [JOBS]

Each mutation is {"definition", "file", "old", "new", "edit", "claim"} and
optionally "check", a list of proof files.  In a scratch copy of /verif/rocq
the text `old` in theories/`file` is replaced by `new`, all statements are
recompiled (coqc -vos) and then the proofs of the files that mention the edited
definition, or a definition that uses it, are checked (coqc -vok).  A proof
that fails is replaced by Admitted, in the scratch copy only, so that the rest
of its file is checked too.  The theorems of the P_*.v files that depend on a
failed lemma, according to the references in the .glob files of the last build
of /verif/rocq, are the ones that failed.  Compiled files of that build are
copied along, so that only what depends on the edited file is compiled again.  The search stops at the first group
of files in which something fails: files that mention the definition itself
first, then files that mention its users, and so on."""
import json, os, re, subprocess, sys, shutil, time
from concurrent.futures import ThreadPoolExecutor

SRC = os.environ.get('MUTSRC', '/verif/rocq')
D = os.environ.get('MUTDIR', '/tmp/mut')
LEM = re.compile(r'^\s*(?:#\[[^\]]*\]\s*)?(?:Local |Global )?(Lemma|Theorem|Example|Corollary|Instance|Fact|Remark)\s+(\w+)', re.M)
KINDS = {'def', 'prf', 'thm', 'ind', 'constr', 'rec', 'proj', 'inst', 'ax', 'fix', 'coe', 'meth'}

def files():
    return [l.strip()[9:-2] for l in open(f'{SRC}/_CoqProject') if l.startswith('theories/')]

def graph():
    """name -> set of names it refers to; name = File.ident"""
    g, prf = {}, set()
    for f in files():
        p = f'{SRC}/theories/{f}.glob'
        if not os.path.exists(p): continue
        defs, refs, kinds = [], [], []
        for l in open(p):
            m = re.match(r'R(\d+):\d+ Verif\.(\w+) <> ([^ ]+) (\w+)', l.rstrip())
            if m: refs.append((int(m.group(1)), m.group(2) + '.' + m.group(3))); continue
            m = re.match(r'(\w+) (\d+):\d+ <> ([^ ]+)', l.rstrip())
            if m and m.group(1) in KINDS:
                defs.append((int(m.group(2)), f + '.' + m.group(3)))
                kinds.append(m.group(1))
                if m.group(1) in ('prf', 'thm'): prf.add(f + '.' + m.group(3))
        defs0 = list(defs)
        defs.sort()
        import bisect
        starts = [d[0] for d in defs]
        for _, n in defs: g.setdefault(n, set())
        owner = None
        for _, n, k in sorted((o, n, k) for (o, n), k in zip(defs0, kinds)):
            if k in ('ind', 'rec'): owner = n
            elif k in ('constr', 'proj') and owner: g[owner].add(n)
        for o, r in refs:
            i = bisect.bisect_right(starts, o) - 1
            if i >= 0 and defs[i][1] != r: g[defs[i][1]].add(r)
    return g, prf

def reverse(g):
    r = {}
    for a, bs in g.items():
        for b in bs: r.setdefault(b, set()).add(a)
    return r

def sh(cmd, timeout=1500):
    try:
        return subprocess.run(cmd, shell=True, stdout=subprocess.PIPE, stderr=subprocess.STDOUT, text=True, timeout=timeout).stdout
    except subprocess.TimeoutExpired:
        return 'KILLED'

def admit(path, line):
    s = open(path).read()
    pos = sum(len(l) + 1 for l in s.split('\n')[:line - 1])
    last = None
    for m in LEM.finditer(s):
        if s[:m.start(1)].count('\n') + 1 <= line: last = m
        else: break
    if last is None: return None
    q = re.search(r'\b(Qed|Defined)\.', s[last.start():])
    pr = re.search(r'\bProof\.', s[last.start():])
    if not q or not pr or pr.start() > q.start(): return None
    end = last.start() + q.end()
    if end < pos - 1: return None
    s2 = s[:last.start() + pr.start()] + 'Admitted.' + '\n' * s[last.start() + pr.start():end].count('\n') + s[end:]
    open(path, 'w').write(s2)
    return last.group(2)

def check(f):
    bad = []
    for _ in range(40):
        out = sh(f"cd {D} && coqc -q -set 'Default Timeout=60' -vok -Q theories Verif theories/{f}.v 2>&1")
        if out == 'KILLED': return bad + ['?timeout']
        e = re.search(r'File "\./theories/(\w+)\.v", line (\d+), characters [^\n]*\n((?:Error|Timeout|Anomaly)[^\n]*)', out)
        if not e:
            return bad if 'Error' not in out else bad + ['?' + out[-200:]]
        n = admit(f'{D}/theories/{f}.v', int(e.group(2)))
        if not n: return bad + [f'?{f}:{e.group(2)}']
        bad.append(f'{f}.{n}')
    return bad

def run(mu, g, prf, rev, jobs):
    t = time.time()
    if os.path.exists(D): shutil.rmtree(D)
    shutil.copytree(SRC, D, ignore=shutil.ignore_patterns('.*.aux', 'Makefile*', '.Makefile*', '.lia.cache', '.nia.cache'))
    p = f"{D}/theories/{mu['file']}"
    s = open(p).read()
    if s.count(mu['old']) != 1: return dict(error=f"old text occurs {s.count(mu['old'])} times")
    open(p, 'w').write(s.replace(mu['old'], mu['new']))
    # proofs inside sections run here too: those that fail are admitted
    early = []
    sh(f"cd {D} && coq_makefile -f _CoqProject -o Makefile")
    for _ in range(30):
        out = sh(f"cd {D} && make -k -j{jobs} vos COQEXTRAFLAGS=\"-set 'Default Timeout=60'\" 2>&1", 3000)
        if out == 'KILLED': return dict(error='statements: timeout')
        es = re.findall(r'File "\./theories/(\w+)\.v", line (\d+), characters [^\n]*\n((?:Error|Timeout|Anomaly)[^\n]*\n?[^\n]*)', out)
        if not es: break
        for f, line, msg in es:
            n = admit(f'{D}/theories/{f}.v', int(line))
            if not n: return dict(error=f'statements do not compile: {f}.v:{line} {msg}')
            early.append(f'{f}.{n}')
    # groups of files
    base = mu['file'][:-2]
    front = {n for n in g if n == f"{base}.{mu['definition']}"} or {f"{base}.{mu['definition']}"}
    seen, done, failed = set(front), set(), early
    first = True
    while True:
        users = set().union(*[rev.get(n, set()) for n in front]) - seen if front else set()
        seen |= users
        fs = {u.split('.')[0] for u in users if u in prf and not u.startswith('P_')} - done
        if first and mu.get('check'): fs |= set(mu['check'])
        first = False
        if fs:
            with ThreadPoolExecutor(jobs) as ex:
                for r in ex.map(check, sorted(fs)): failed += r
            done |= fs
        if [x for x in failed if not x.startswith('?')] or not users: break
        front = {u for u in users if u not in prf}
        if not front: break
    # property theorems depending on a failed lemma
    out, todo = set(), [x for x in failed if not x.startswith('?')]
    seen2 = set(todo)
    while todo:
        x = todo.pop()
        if x.startswith('P_'): out.add(x.split('.')[1])
        for y in rev.get(x, ()):
            if y not in seen2: seen2.add(y); todo.append(y)
    return dict(failed_lemmas=failed, failed=sorted(out), checked=sorted(done), secs=round(time.time() - t))

def main():
    jobs = int(sys.argv[3]) if len(sys.argv) > 3 else 3
    g, prf = graph()
    rev = reverse(g)
    muts = json.load(open(sys.argv[1]))
    for mu in muts:
        r = run(mu, g, prf, rev, jobs)
        rec = dict(definition=mu['definition'], file=mu['file'], edit=mu['edit'], claim=mu['claim'], **r)
        open(sys.argv[2], 'a').write(json.dumps(rec) + '\n')
        print(mu['definition'], '|', mu['edit'], '|', mu['claim'], '->', r.get('error') or (len(r['failed']), r['failed'][:8]), '|', r.get('failed_lemmas'), r.get('checked'), r.get('secs'), flush=True)
main()
