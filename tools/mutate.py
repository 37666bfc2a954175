#!/usr/bin/env python3
"""mutate.py MUTATIONS.json OUT.jsonl [jobs]
Try wrong programs against the theorems, each in a scratch copy outside the repository.
A mutation is {"definition", "file", "old", "new", "edit", "claim"}: "old" (which must
occur once in rocq/theories/<file>.v) is replaced by "new". Files that depend on it are
recompiled; a proof that fails is replaced by Admitted in the scratch copy, so that the
property theorems that rest on it show up in what Print Assumptions lists. The answer
names the lemmas whose proofs broke and the property theorems (P_*.v) that depend on
them or broke themselves."""
import json, os, re, shutil, subprocess, sys
from concurrent.futures import ThreadPoolExecutor
root = os.path.dirname(os.path.dirname(os.path.abspath(__file__)))
src = root + '/rocq'
TIMEOUT = 240
HEAD = re.compile(r'^\s*(?:Global |Local |#\[[^\]]*\] )*(Lemma|Theorem|Example|Corollary|Fact|Instance|Remark)\s+(\w+)', re.M)

def order():
    out = subprocess.run('coqdep -Q theories Verif -sort ' + ' '.join(
        l.strip() for l in open(src + '/_CoqProject') if l.startswith('theories/')),
        shell=True, cwd=src, capture_output=True, text=True).stdout
    return [os.path.basename(f)[:-2] for f in out.split()]

def deps():
    d = {}
    for f in ORDER:
        t = open(f'{src}/theories/{f}.v').read()
        ms = re.findall(r'From Verif Require(?: Import)?([^.]*)\.', t)
        d[f] = set(w for m in ms for w in m.split())
    return d

def proof_span(text, pos):
    """The statement whose proof contains character pos: name and span of its proof."""
    best = None
    for m in HEAD.finditer(text):
        if m.start() > pos: break
        best = m
    if not best: return None
    p = re.compile(r'\bProof\b[^.]*\.').search(text, best.end())
    if not p: return None
    q = re.compile(r'\b(Qed|Defined)\.').search(text, p.end())
    if not q or pos > q.end() : return None
    if pos < p.start(): return (best.group(2), None, None)
    return (best.group(2), p.end(), q)

def compile_file(d, f, broken, log):
    path = f'{d}/theories/{f}.v'
    for _ in range(60):
        r = subprocess.run(f'ulimit -v 6000000; timeout {TIMEOUT} coqc -q -w none -Q theories Verif theories/{f}.v',
                           shell=True, cwd=d, capture_output=True, text=True)
        if r.returncode == 0:
            return r.stdout
        text = open(path).read()
        m = re.search(r'File "[^"]*", line (\d+), characters (\d+)-(\d+)', r.stderr)
        if r.returncode in (124, 137) or not m:
            t = subprocess.run(f'timeout {TIMEOUT} coqc -q -w none -time -Q theories Verif theories/{f}.v',
                               shell=True, cwd=d, capture_output=True, text=True)
            cs = re.findall(r'Chars (\d+) - (\d+)', t.stdout)
            if not cs: log.append(f'{f}: {r.stderr[-300:]}'); return None
            pos = len(text.encode()[:int(cs[-1][1])].decode(errors='ignore')) + 2
        else:
            lines = text.encode().split(b'\n')
            off = sum(len(l) + 1 for l in lines[:int(m.group(1)) - 1]) + int(m.group(2))
            pos = len(text.encode()[:off].decode(errors='ignore')) + 1
        sp = proof_span(text, pos)
        if not sp or sp[1] is None:
            log.append(f'{f}: {r.stderr[-300:]}')
            return None
        name, a, q = sp
        broken.append(f'{f}.{name}')
        text = text[:a] + ' Admitted.' + text[q.end():]
        open(path, 'w').write(text)
    return None

def run(i, m):
    d = f'/tmp/mut/{os.getpid()}_{i}'
    shutil.rmtree(d, ignore_errors=True)
    os.makedirs(d)
    subprocess.run(f'cp -a {src}/theories {d}/', shell=True)
    p = f'{d}/theories/{m["file"]}.v'
    t = open(p).read()
    if t.count(m['old']) != 1:
        shutil.rmtree(d); return {**m, 'error': f'old occurs {t.count(m["old"])} times'}
    open(p, 'w').write(t.replace(m['old'], m['new']))
    dirty, broken, log, props = {m['file']}, [], [], []
    bad = set()
    for f in ORDER:
        if f != m['file'] and not (DEPS[f] & dirty): continue
        if DEPS[f] & bad:
            bad.add(f)
            if f.startswith('P_'): props += [f'{n} (not built)' for n in re.findall(r'Theorem (C\d+\w*)', open(f'{d}/theories/{f}.v').read())]
            continue
        dirty.add(f)
        nb = len(broken)
        out = compile_file(d, f, broken, log)
        if out is None:
            bad.add(f); continue
        if f.startswith('P_'):
            names = re.findall(r'Print Assumptions (\w+)', open(f'{d}/theories/{f}.v').read())
            blocks = re.split(r'(?m)^(?=Closed under|Axioms:)', out)[1:]
            own = {b.split('.')[1] for b in broken[nb:]}
            for n, b in zip(names, blocks):
                if not b.startswith('Closed') and (broken or n in own): props.append(n)
            props += [n for n in own if n not in props]
    shutil.rmtree(d, ignore_errors=True)
    return {**m, 'broken': broken, 'failed': sorted(set(props)), 'log': log}

if __name__ == '__main__':
    ms = json.load(open(sys.argv[1]))
    jobs = int(sys.argv[3]) if len(sys.argv) > 3 else 4
    ORDER = order(); DEPS = deps()
    os.makedirs('/tmp/mut', exist_ok=True)
    with ThreadPoolExecutor(jobs) as ex, open(sys.argv[2], 'a') as out:
        for r in ex.map(lambda a: run(*a), enumerate(ms)):
            out.write(json.dumps(r) + '\n'); out.flush()
            print(r['definition'], '|', r['edit'], '| broken', len(r.get('broken', [])), '| failed', len(r.get('failed', [])), r.get('error', ''), r.get('log', ''), flush=True)
            if 'failed' in r: print('    ', ' '.join(r['failed'][:14]), flush=True)
