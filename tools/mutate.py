#!/usr/bin/env python3
"""Try wrong programs. Reads mutants from a JSON-lines file: {"file", "old", "new", "edit", "claim", "expect": ["Cnn", ...]}.
For each one: copy the theories outside the repository, edit the model, rebuild everything that depends on it. A proof that
no longer goes through is replaced by Admitted in the copy and the build goes on, so that the theorems that failed are the
ones that no longer prove or that rest on such a lemma (Print Assumptions). Prints one JSON line per mutant."""
import json, os, re, shutil, subprocess, sys
from concurrent.futures import ThreadPoolExecutor
SRC = os.path.join(os.path.dirname(os.path.dirname(os.path.abspath(__file__))), 'rocq', 'theories')
WORK = os.environ.get('MUTDIR', '/tmp/mut/w')

def deps():
    fs = sorted(f for f in os.listdir(SRC) if f.endswith('.v'))
    d = {}
    for f in fs:
        t = open(os.path.join(SRC, f)).read()
        r = set()
        for m in re.finditer(r'From Verif Require (?:Import|Export)\s+([^.]*)\.', t):
            r |= {x + '.v' for x in m.group(1).split()}
        d[f] = r
    order = []
    def visit(f):
        if f in order: return
        for g in sorted(d[f]): visit(g)
        order.append(f)
    for f in fs: visit(f)
    return d, order

def users(d, order, f):
    s = {f}
    for g in order:
        if d[g] & s: s.add(g)
    return [g for g in order if g in s]

HEAD = re.compile(r'^(?:#\[[^\]]*\]\s*)?(?:Local |Global )?(Lemma|Theorem|Example|Corollary|Fact|Remark|Proposition|Instance|Definition|Fixpoint|Inductive|Record|Ltac|Notation)\s+(\w+)', re.M)

def enclosing(text, pos):
    last = None
    for m in HEAD.finditer(text):
        if m.start() > pos: break
        last = m
    return last

def admit(text, m):
    p = re.compile(r'\bProof\b').search(text, m.end())
    q = re.compile(r'\b(Qed|Defined)\.').search(text, m.end())
    if not p or not q or p.start() > q.start(): return None
    body = text[p.start():q.end()]
    return text[:p.start()] + 'Admitted.' + '\n' * body.count('\n') + text[q.end():]

def compile1(wd, f, limit):
    try:
        r = subprocess.run(['coqc', '-time', '-Q', wd, 'Verif', os.path.join(wd, f)], capture_output=True, timeout=limit, cwd=wd)
        return r.returncode, r.stdout.decode('utf8', 'replace'), r.stderr.decode('utf8', 'replace')
    except subprocess.TimeoutExpired as e:
        return 124, (e.stdout or b'').decode('utf8', 'replace'), ''

def run(i, mu):
    wd = '%s%d' % (WORK, i)
    shutil.rmtree(wd, ignore_errors=True)
    shutil.copytree(SRC, wd, ignore=lambda a, b: [x for x in b if not (x.endswith('.v') or x.endswith('.vo'))])
    d, order = deps()
    p = os.path.join(wd, mu['file'])
    t = open(p).read()
    if t.count(mu['old']) != 1:
        return dict(mu, result='pattern found %d times' % t.count(mu['old']))
    open(p, 'w').write(t.replace(mu['old'], mu['new']))
    bad, failed, examples = [], [], []
    for f in users(d, order, mu['file']):
        path = os.path.join(wd, f)
        while True:
            rc, out, err = compile1(wd, f, int(os.environ.get('LIMIT', '400')))
            if rc == 0: break
            text = open(path).read()
            btext = text.encode()
            m = re.search(r'line (\d+), characters (\d+)', err)
            if rc == 124:
                c = re.findall(r'^Chars (\d+) - (\d+)', out, re.M)
                pos = len(btext[:int(c[-1][1]) + 1].decode('utf8', 'ignore')) if c else 0
            elif m:
                lines = text.split('\n')
                pos = sum(len(x) + 1 for x in lines[:int(m.group(1)) - 1]) + int(m.group(2))
            else:
                return dict(mu, result='no build: ' + f + ' ' + err[-300:])
            h = enclosing(text, pos)
            new = admit(text, h) if h else None
            if new is None or len(bad) > 60:
                return dict(mu, result='no build: %s %s %s' % (f, h.group(2) if h else '', err[-300:]))
            bad.append(h.group(2))
            if h.group(1) == 'Theorem' and re.match(r'C\d', h.group(2)): failed.append(h.group(2))
            if h.group(1) == 'Example': examples.append(h.group(2))
            open(path, 'w').write(new)
        if f.endswith('Properties.v'):
            text = open(path).read()
            names = re.findall(r'^Print Assumptions (\w+)\.', text, re.M)
            body = re.sub(r'^Chars \d+ - \d+ \[.*$', '@@', out, flags=re.M)
            chunks = re.split(r'(?=^Axioms:|^Closed under)', body, flags=re.M)[1:]
            for n, c in zip(names, chunks):
                if n not in failed and any(re.search(r'^(?:\w+\.)?' + re.escape(b) + r'\b', c, re.M) for b in bad):
                    failed.append(n)
    shutil.rmtree(wd, ignore_errors=True)
    miss = [c for c in mu['expect'] if not any(x.startswith(c + '_') for x in failed)]
    return dict(mu, result='caught' if not miss else 'SURVIVED for ' + ' '.join(miss), failed=failed, lemmas=bad, examples=examples)

if __name__ == '__main__':
    ms = [json.loads(x) for x in open(sys.argv[1]) if x.strip()]
    with ThreadPoolExecutor(int(os.environ.get('JOBS', '4'))) as ex:
        for r in ex.map(lambda a: run(*a), list(enumerate(ms))):
            print(json.dumps(r), flush=True)
