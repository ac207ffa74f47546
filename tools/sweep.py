#!/usr/bin/env python3
"""Generate edits of the model files mechanically and report those that no proof notices.
usage: sweep.py gen out.json per-definition seed [files] | sweep.py run mutants.json results.jsonl workers
Works on the copy in /tmp/snap (theories and _CoqProject, built).  A run stops at the first file with a failing
proof; an edit whose own file does not compile is reported as ill-typed."""
import json, os, re, random, subprocess, sys, threading, queue, shutil, glob, time
SNAP = '/tmp/snap'; SRC = SNAP + '/theories'
KEY = re.compile(r'^[ ]*(?:Local\s+)?(Definition|Fixpoint|Inductive|Record|Lemma|Theorem|Example|Remark|Instance|Section|End|Variable|Variables|Hypothesis|Notation|Ltac|Class|Import|From|Local Open|Arguments|Context|Scheme|Variant|Coercion|Proof|with)\b', re.M)

def mask(t):
    """Comments replaced by blanks of the same length."""
    out, d, i, s = [], 0, 0, False
    while i < len(t):
        if not s and t.startswith('(*', i): d += 1; out.append('  '); i += 2; continue
        if not s and d and t.startswith('*)', i): d -= 1; out.append('  '); i += 2; continue
        if t[i] == '"' and not d: s = not s
        out.append(t[i] if not d or t[i] == '\n' else ' '); i += 1
    return ''.join(out)

def definitions(t):
    m = mask(t); ks = list(KEY.finditer(m))
    for i, k in enumerate(ks):
        if k.group(1) in ('Definition', 'Fixpoint', 'with'):
            e = ks[i + 1].start() if i + 1 < len(ks) else len(m)
            nm = re.match(r'\s*(?:Local\s+)?\w+\s+([\w\']+)', m[k.start():])
            b = m.find(':=', k.start(), e)
            if b >= 0: yield nm.group(1), b + 2, e

def records():
    out = {}
    for f in glob.glob(SRC + '/*.v'):
        t = mask(open(f).read())
        for m in re.finditer(r'Record\s+\w+[^:{]*:?[^:{]*:=\s*\w*\s*\{([^}]*)\}', t):
            fs = [x.strip() for x in m.group(1).split(';')]
            fs = [tuple(y.strip() for y in x.split(':', 1)) for x in fs if ':' in x]
            for n, ty in fs:
                out[n] = [a for a, b in fs if b == ty and a != n]
    return out

def constructors():
    out = {}
    for f in glob.glob(SRC + '/M_*.v') + glob.glob(SRC + '/Base*.v'):
        t = mask(open(f).read())
        for m in re.finditer(r'Inductive\s+\w+[^.]*?:=([^.]*)\.', t):
            cs = [c.strip() for c in m.group(1).split('|') if c.strip()]
            pl = {}
            for c in cs:
                h = re.match(r'(\w+)\s*(.*)', c, re.S)
                if h: pl.setdefault(re.sub(r'\w+\s*:', ':', h.group(2)), []).append(h.group(1))
            for l in pl.values():
                for c in l: out[c] = [x for x in l if x != c]
    return out

def mutants_of(t, b, e, recs, cons):
    m = mask(t); s = m[b:e]; out = []
    def put(a, z, new, why): out.append((b + a, b + z, new, why))
    instr = [False] * (len(s) + 1); q = False
    for i, c in enumerate(s):
        if c == '"': q = not q
        instr[i] = q or c == '"'
    for x in re.finditer(r'"([^"]*)"', s):
        put(x.start(), x.end(), '"' + x.group(1) + 'x"', f'the text {x.group(1)!r} changed')
    def code(x): return not instr[x.start()]
    def each(pat, new, why):
        for x in re.finditer(pat, s):
            if code(x): put(x.start(), x.end(), new(x), why(x))
    each(r'\btrue\b', lambda x: 'false', lambda x: 'false for true')
    each(r'\bfalse\b', lambda x: 'true', lambda x: 'true for false')
    each(r'&&', lambda x: '||', lambda x: 'and replaced by or')
    each(r'\|\|', lambda x: '&&', lambda x: 'or replaced by and')
    each(r'(?<![\w\'.])\d+(?![\w\'])', lambda x: str(int(x.group(0)) + 1), lambda x: f'the number {x.group(0)} one higher')
    each(r'\bnegb ', lambda x: 'id ', lambda x: 'negation dropped')
    for x in re.finditer(r'\bif\b', s):
        if not code(x): continue
        d = 1
        for y in re.finditer(r'\b(if|then)\b', s[x.end():]):
            d += 1 if y.group(1) == 'if' else -1
            if d == 0: break
        if d == 0:
            c = s[x.end(): x.end() + y.start()]
            put(x.end(), x.end() + y.start(), ' negb (' + c.strip() + ') ', 'the test ' + ' '.join(c.split())[:60] + ' negated')
    each(r"([\w']+) \+\+ \[([^\]\[;]*)\]", lambda x: f'[{x.group(2)}] ++ {x.group(1)}', lambda x: 'added at the front instead of the end')
    each(r"\(([\w'.]+) ([\w']+)\)", lambda x: x.group(2), lambda x: f'{x.group(1)} left out')
    two = r"\(([\w'.]+) ([\w'.]+|\([^()]*\)) ([\w'.]+|\([^()]*\))\)"
    each(two, lambda x: f'({x.group(1)} {x.group(3)} {x.group(2)})', lambda x: f'the arguments of {x.group(1)} swapped')
    each(two, lambda x: x.group(3), lambda x: f'{x.group(1)} left out')
    for x in re.finditer(r"[\w']+", s):
        if not code(x): continue
        for o in recs.get(x.group(0), [])[:6]: put(x.start(), x.end(), o, f'{o} for {x.group(0)}')
        for o in cons.get(x.group(0), [])[:4]:
            if not re.match(r'[^|;)]*=>', s[x.end():]): put(x.start(), x.end(), o, f'{o} for {x.group(0)}')
    br = [x for x in re.finditer(r'=>', s) if code(x)]
    def body(x):
        d = 0; j = x.end()
        while j < len(s):
            if not instr[j]:
                if s[j] in '([{': d += 1
                if s[j] in ')]}':
                    if d == 0: break
                    d -= 1
                if d == 0 and s[j] == '|' and s[j+1] != '|' and s[j-1] != '|': break
                w = not (s[j-1].isalnum() or s[j-1] == '_')
                if d == 0 and w and re.match(r'end\b', s[j:]): break
                if w and re.match(r'match\b', s[j:]):
                    n = 0
                    for y in re.finditer(r'\b(match|end)\b', s[j:]):
                        n += 1 if y.group(1) == 'match' else -1
                        if n == 0: break
                    if n: return None
                    j += y.end(); continue
            j += 1
        return (x.end(), j)
    for i, x in enumerate(br[:-1]):
        p, r = body(x), body(br[i + 1])
        if p and r and p[1] < r[0] and s[p[0]:p[1]].strip() != s[r[0]:r[1]].strip():
            put(p[0], p[1], ' ' + s[r[0]:r[1]].strip() + ' ', 'a case treated like the next one: ' + ' '.join(s[max(0, x.start() - 30):x.start()].split()))
            put(r[0], r[1], ' ' + s[p[0]:p[1]].strip() + ' ', 'a case treated like the one before: ' + ' '.join(s[max(0, br[i+1].start() - 30):br[i+1].start()].split()))
    return out

def gen(out, per, seed, only=None):
    rnd = random.Random(seed); recs, cons = records(), constructors(); ms = []
    for f in sorted(glob.glob(SRC + '/M_*.v')):
        n = os.path.basename(f)[:-2]
        if only and n not in only: continue
        t = open(f).read(); k = 0
        for d, b, e in definitions(t):
            c = mutants_of(t, b, e, recs, cons); rnd.shuffle(c)
            for a, z, new, why in c[:per]:
                k += 1; ms.append({'id': f'{n}-{seed}-{k}', 'file': n, 'at': [a, z], 'new': new, 'definition': d, 'edit': why, 'old': t[a:z]})
    json.dump(ms, open(out, 'w'), indent=0); print(len(ms))

def deps_all():
    listed = [os.path.basename(l.strip())[:-2] for l in open(SNAP + '/_CoqProject') if l.strip().endswith('.v')]
    dep = {}
    for n in listed:
        dep[n] = set()
        for m in re.finditer(r'From Verif Require (?:Import|Export)?\s*([^.]*)\.', open(f'{SRC}/{n}.v').read()): dep[n] |= set(m.group(1).split())
    out = []
    def put(n):
        if n in out or n not in listed: return
        for d in sorted(dep[n]): put(d)
        out.append(n)
    for n in listed: put(n)
    return out, dep

ORDER, DEP = None, None

def dependents(f):
    out, seen = [], {f}
    for n in ORDER:
        if n == f or DEP[n] & seen: seen.add(n); out.append(n)
    return out

TIMES, KILLS, TL = {}, {}, threading.Lock()
def cost(n): return TIMES.get(n) or os.path.getsize(f'{SRC}/{n}.v') / 3000
def schedule(f, ds):
    """The dependents of f, quick files and those that noticed edits of f before first."""
    ds = set(ds); done = []
    direct = {n: DEP[n] & ds for n in ds}
    need = {}
    def closure(n):
        if n not in need:
            need[n] = {n}
            for x in direct[n]: need[n] |= closure(x)
        return need[n]
    for n in ds: closure(n)
    while len(done) < len(ds):
        left = [n for n in ds if n not in done]
        best = min(left, key=lambda n: (sum(cost(x) for x in need[n] if x not in done) / (0.2 + KILLS.get((f, n), 0)), n))
        for n in ORDER:
            if n in need[best] and n not in done: done.append(n)
    return done

def coqc(d, n, timeout=400):
    try:
        p = subprocess.run(['bash', '-c', f'ulimit -v 5000000; exec coqc -Q {d} Verif {d}/{n}.v'], capture_output=True, text=True, timeout=timeout)
        return p.returncode, p.stdout + p.stderr
    except subprocess.TimeoutExpired: return 99, 'TIMEOUT'

def run1(m, d):
    f = m['file']; t = open(f'{SRC}/{f}.v').read()
    ds = dependents(f)
    shutil.rmtree(d, ignore_errors=True); os.makedirs(d)
    for n in ORDER:
        if n not in ds: os.symlink(f'{SRC}/{n}.vo', f'{d}/{n}.vo')
        else: shutil.copy(f'{SRC}/{n}.v', d)
    a, z = m['at']
    open(f'{d}/{f}.v', 'w').write(t[:a] + m['new'] + t[z:])
    t0 = time.time()
    for n in schedule(f, ds):
        t1 = time.time(); rc, out = coqc(d, n)
        with TL:
            if rc == 0: TIMES[n] = time.time() - t1
            elif n != f: KILLS[f, n] = KILLS.get((f, n), 0) + 1
        if rc:
            if n == f: return {'id': m['id'], 'state': 'ill-typed', 'out': out[-200:]}
            x = re.search(r'line (\d+), characters (\d+)', out); name = None
            if x:
                tt = open(f'{d}/{n}.v').read(); pos = sum(len(l) + 1 for l in tt.split('\n')[:int(x.group(1)) - 1]) + int(x.group(2))
                for h in re.finditer(r'^\s*(?:Local\s+)?(Lemma|Theorem|Corollary|Example|Remark|Fact|Definition|Fixpoint|Record|Inductive)\s+([\w\']+)', tt, re.M):
                    if h.start() > pos: break
                    name = h.group(2)
            return {'id': m['id'], 'state': 'killed', 'in': n, 'lemma': name, 'time': round(time.time() - t0), 'out': out[-200:]}
    return {'id': m['id'], 'state': 'SURVIVED', 'time': round(time.time() - t0)}

def main():
    global ORDER, DEP
    if sys.argv[1] == 'gen':
        return gen(sys.argv[2], int(sys.argv[3]), int(sys.argv[4]), sys.argv[5:] or None)
    ORDER, DEP = deps_all()
    ms = json.load(open(sys.argv[2])); out = sys.argv[3]; w = int(sys.argv[4])
    done = {json.loads(l)['id'] for l in open(out)} if os.path.exists(out) else set()
    files = {m['id']: m['file'] for m in ms}
    if os.path.exists(out):
        for l in open(out):
            r = json.loads(l)
            if r['state'] == 'killed' and r['id'] in files: KILLS[files[r['id']], r['in']] = KILLS.get((files[r['id']], r['in']), 0) + 1
    q = queue.Queue(); lock = threading.Lock()
    for m in ms:
        if m['id'] not in done: q.put(m)
    def work(i):
        while True:
            try: m = q.get_nowait()
            except queue.Empty: return
            try: r = run1(m, f'/tmp/sw/w{i}')
            except Exception as e: r = {'id': m['id'], 'state': 'error', 'out': repr(e)}
            with lock: open(out, 'a').write(json.dumps(r) + '\n')
    ts = [threading.Thread(target=work, args=(i,)) for i in range(w)]
    [x.start() for x in ts]; [x.join() for x in ts]
main()
