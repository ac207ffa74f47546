#!/usr/bin/env python3
"""Rebuild a scratch copy of the theories with one edit each and report which proofs fail.
usage: mutate.py mutants.json results.jsonl [workers]
A mutant is {"id", "file", "old", "new", "claim"}; "old" must occur exactly once in the file (or give
"count").  A failing proof is replaced by Admitted in the copy, and the build goes on, so that all
failing lemmas are found.  A theorem is reported as failed if its proof fails or mentions, directly
or through other lemmas, one that does."""
import json, os, re, shutil, subprocess, sys, threading, queue
SRC = '/verif/rocq/theories'
HEAD = re.compile(r'^\s*(?:Local\s+|#\[[^\]]*\]\s*)?(Lemma|Theorem|Corollary|Example|Remark|Fact|Definition|Fixpoint|Inductive|Record)\s+([\w\']+)', re.M)

def order():
    """The files of _CoqProject, each after those it requires."""
    listed = [os.path.basename(l.strip())[:-2] for l in open('/verif/rocq/_CoqProject') if l.strip().endswith('.v')]
    out = []
    def put(n):
        if n in out or n not in listed: return
        for d in sorted(deps(n, text(SRC))): put(d)
        out.append(n)
    for n in listed: put(n)
    return out

def deps(name, text_of):
    t = text_of(name)
    ds = set()
    for m in re.finditer(r'From Verif Require (?:Import|Export)?\s*([^.]*)\.', t):
        ds |= set(m.group(1).split())
    return ds

def text(d):
    return lambda n: open(f'{d}/{n}.v').read()

def dependents(name):
    out, seen = [], {name}
    for n in order():
        if n == name or deps(n, text(SRC)) & seen:
            seen.add(n); out.append(n)
    return out

def compile1(d, n, timeout=400):
    try:
        p = subprocess.run(['bash', '-c', f'ulimit -v 5000000; exec coqc -Q {d} Verif {d}/{n}.v'], capture_output=True, text=True, timeout=timeout)
        return p.returncode, p.stdout + p.stderr
    except subprocess.TimeoutExpired:
        return 99, 'TIMEOUT'

def enclosing(t, pos):
    last = None
    for m in HEAD.finditer(t):
        if m.start() > pos: break
        last = m
    return last

def run(mut, d):
    shutil.rmtree(d, ignore_errors=True); os.makedirs(d)
    for f in os.listdir(SRC):
        if f.endswith('.v') or f.endswith('.vo'): shutil.copy2(f'{SRC}/{f}', d)
    f = mut['file']
    t = open(f'{d}/{f}.v').read()
    c = t.count(mut['old'])
    if c != mut.get('count', 1): return {'id': mut['id'], 'error': f'old occurs {c} times'}
    open(f'{d}/{f}.v', 'w').write(t.replace(mut['old'], mut['new']))
    failed, broken = [], []
    for n in dependents(f):
        for _ in range(200):
            rc, out = compile1(d, n)
            if rc == 0: break
            m = re.search(r'File "[^"]*/([\w]+)\.v", line (\d+), characters (\d+)-(\d+)', out)
            if not m or m.group(1) != n:
                broken.append([n, out[-300:]]); break
            t = open(f'{d}/{n}.v').read()
            lines = t.split('\n')
            pos = sum(len(l) + 1 for l in lines[:int(m.group(2)) - 1]) + int(m.group(3))
            h = enclosing(t, pos)
            if h is None or h.group(1) in ('Fixpoint', 'Inductive', 'Record'):
                broken.append([n, out[-300:]]); break
            tail = t[h.start():]
            pm = re.search(r'\bProof\b[^.]*\.', tail)
            qm = re.search(r'\b(Qed|Defined)\.', tail)
            if not pm or not qm or pm.start() > qm.start() or pos < h.start() + pm.start():
                broken.append([n, h.group(2) + ': ' + out[-300:]])
                # drop the whole statement if it has a proof and nothing can be admitted
                if pm and qm and h.group(1) != 'Definition':
                    failed.append([n, h.group(2)])
                    t = t[:h.start()] + t[h.start() + qm.end():]
                    open(f'{d}/{n}.v', 'w').write(t); continue
                break
            failed.append([n, h.group(2)])
            t = t[:h.start()] + tail[:pm.start()] + 'Admitted.' + tail[qm.end():]
            # a Print Assumptions is harmless
            open(f'{d}/{n}.v', 'w').write(t)
        else:
            broken.append([n, 'gave up'])
        if rc != 0: break
    # transitive dependence by name, also through tactics, on the original sources
    bodies = {}
    head = re.compile(HEAD.pattern.replace('(Lemma|', '(Ltac|Lemma|'), re.M)
    for n in order():
        t = text(SRC)(n); hs = list(head.finditer(t))
        for i, h in enumerate(hs):
            bodies[h.group(2)] = t[h.start(): hs[i + 1].start() if i + 1 < len(hs) else len(t)]
    bad = {x[1] for x in failed}
    direct = set(bad)
    words = {k: set(re.findall(r"[\w']+", re.sub(r'\(\*.*?\*\)', '', v, flags=re.S))) for k, v in bodies.items()}
    proofs = {k for k, v in bodies.items() if re.match(r'\s*(?:Local\s+)?(Ltac|Lemma|Theorem|Corollary|Example|Remark|Fact)', v)}
    ch = True
    while ch:
        ch = False
        for k in proofs:
            if k not in bad and words[k] & bad:
                bad.add(k); ch = True
    ths = sorted(k for k in bad if re.match(r'C\d+_', k))
    return {'id': mut['id'], 'failed': failed, 'broken': broken, 'theorems': ths, 'direct': sorted(k for k in direct if re.match(r'C\d+_', k))}

def main():
    muts = json.load(open(sys.argv[1])); out = sys.argv[2]
    w = int(sys.argv[3]) if len(sys.argv) > 3 else 2
    done = {json.loads(l)['id'] for l in open(out)} if os.path.exists(out) else set()
    q = queue.Queue(); lock = threading.Lock()
    for m in muts:
        if m['id'] not in done: q.put(m)
    def work(i):
        while True:
            try: m = q.get_nowait()
            except queue.Empty: return
            try: r = run(m, f'/tmp/mut/w{i}')
            except Exception as e: r = {'id': m['id'], 'error': repr(e)}
            with lock:
                open(out, 'a').write(json.dumps(r) + '\n')
    ts = [threading.Thread(target=work, args=(i,)) for i in range(w)]
    [t.start() for t in ts]; [t.join() for t in ts]
main()
