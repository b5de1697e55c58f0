#!/usr/bin/env python3
"""Seeded-bug testing.

    seed.py SCRATCH BUGS.py OUT.jsonl [workers]

BUGS.py defines a list `bugs` of (file, definition, old, new, claim broken).
For every bug the built development is copied to SCRATCH, the edit applied to
the model, and every file that depends on it recompiled.  A proof that no
longer goes through is replaced by `Admitted` in the copy, so that the theorems
above it are still checked; `Print Assumptions` then tells which property
theorems rest on a broken proof.  A definition that no longer compiles makes
every file that needs it count as failed.

With FIRST=1 in the environment a bug is done with as soon as one property
theorem is known to fail: after the first broken proof only what the nearest
property files need is compiled."""
import json, os, re, shutil, subprocess, sys, time
from concurrent.futures import ThreadPoolExecutor

SRC = os.environ.get('SEED_SRC', '/verif/rocq')
scratch, bugfile, outfile = sys.argv[1:4]
workers = int(sys.argv[4]) if len(sys.argv) > 4 else 3

def files():
    return [l.strip() for l in open(SRC + '/_CoqProject') if l.strip().endswith('.v')]
FILES = files()
NAME = {f: os.path.basename(f)[:-2] for f in FILES}
DEPS = {}
for f in FILES:
    text = open(f'{SRC}/{f}').read()
    ds = set()
    for m in re.finditer(r'From\s+Verif\s+Require\s+(?:Import|Export)?\s*([^.]*)\.', text):
        ds |= set(m.group(1).split())
    DEPS[NAME[f]] = ds

FIRST = bool(os.environ.get('FIRST'))
def closure(n, seen):
    for d in DEPS.get(n, ()):
        if d not in seen:
            seen.add(d); closure(d, seen)
    return seen
ALL = {n: closure(n, set()) for n in DEPS}

HEAD = re.compile(r'^(?:Local |Global |#\[[^\]]*\] )*(Lemma|Theorem|Example|Corollary|Fact|Remark)\s+([\w\']+)', re.M)

def line_off(text, line, col):
    """Byte position -> offset in bytes."""
    pos = 0
    for _ in range(line - 1):
        pos = text.index(b'\n', pos) + 1
    return pos + col

def coqc(d, f, tmo):
    cmd = ['coqc', '-time', '-q', '-Q', 'theories', 'Verif', f]
    try:
        p = subprocess.run(cmd, cwd=d, capture_output=True, timeout=tmo)
        return p.returncode, p.stdout.decode(errors='replace'), p.stderr.decode(errors='replace')
    except subprocess.TimeoutExpired as e:
        return 'timeout', (e.stdout or b'').decode(errors='replace'), ''

def admit_at(path, off):
    """Replace the proof around byte offset off; return the lemma name or None."""
    t = open(path, 'rb').read()
    # last Proof before or at off
    starts = [m for m in re.finditer(rb'\bProof\b[^.]*\.', t) if m.start() <= off]
    if not starts: return None
    s = starts[-1]
    e = re.compile(rb'\b(Qed|Defined|Admitted)\.').search(t, s.end())
    if not e or e.end() < off or e.group(1) == b'Admitted': return None
    heads = [m for m in HEAD.finditer(t[:s.start()].decode('latin1'))]
    if not heads: return None
    name = heads[-1].group(2)
    t = t[:s.start()] + b'Proof. Admitted.' + t[e.end():]
    open(path, 'wb').write(t)
    return name

def run(i, bug):
    file, defn, old, new, claim = bug
    t0 = time.time()
    d = f'{scratch}/{i}'
    shutil.rmtree(d, ignore_errors=True)
    subprocess.run(['cp', '-a', SRC, d], check=True)
    p = f'{d}/theories/{file}'
    text = open(p).read()
    rec = {'definition': f'{file[:-2]}.{defn}', 'edit': {'replace': old, 'by': new}, 'breaks': claim}
    if text.count(old) != 1:
        rec['error'] = f'pattern occurs {text.count(old)} times'
        shutil.rmtree(d); return rec
    open(p, 'w').write(text.replace(old, new))
    dirty, dead = {file[:-2]}, set()
    lemmas, examples, theorems, refuted = [], [], [], []
    todo = list(FILES)
    plan = []                    # with FIRST: what is compiled next
    while todo:
        if FIRST and theorems:
            rec['stopped_at_first'] = True; break
        if FIRST and (lemmas or dead) and not plan:
            hit = {x.split('.')[0] for x in lemmas} | dead
            left = {NAME[f] for f in todo if file[:-2] in ALL[NAME[f]]}
            goals = [n for n in left if n.startswith('Prop_') and ALL[n] & hit]
            if goals:
                g = min(goals, key=lambda n: (len(ALL[n] & left), n))
                plan = [f for f in todo if NAME[f] == g or NAME[f] in ALL[g]]
        f = plan.pop(0) if plan else todo[0]
        todo.remove(f)
        n = NAME[f]
        if n != file[:-2] and not (DEPS[n] & (dirty | dead)): continue
        dirty.add(n)
        fp = f'{d}/{f}'
        vo = fp + 'o'
        if DEPS[n] & dead:
            dead.add(n)
            if os.path.exists(vo): os.remove(vo)
            if n.startswith('Prop_'):
                theorems += [m.group(2) for m in HEAD.finditer(open(fp).read()) if m.group(1) == 'Theorem']
            continue
        for attempt in range(200):
            tmo = 1200
            rc, out, err = coqc(d, f, 600)
            if rc == 0: break
            if rc == 'timeout':
                ms = re.findall(r'Chars (\d+) - (\d+)', out)
                off = int(ms[-1][1]) + 2 if ms else 0
            else:
                m = re.search(r'File "[^"]*", line (\d+), characters (\d+)-(\d+)', err)
                if not m: off = 0
                else: off = line_off(open(fp, 'rb').read(), int(m.group(1)), int(m.group(2)))
            nm = admit_at(fp, off)
            if nm is None:
                dead.add(n); rec.setdefault('broken_files', []).append(n)
                rec.setdefault('broken_error', err[-300:])
                if os.path.exists(vo): os.remove(vo)
                if n.startswith('Prop_'):
                    theorems += [m.group(2) for m in HEAD.finditer(open(fp).read()) if m.group(1) == 'Theorem']
                break
            kind = [m.group(1) for m in HEAD.finditer(open(fp).read()) if m.group(2) == nm][0]
            (examples if kind == 'Example' else lemmas).append(f'{n}.{nm}')
        else:
            dead.add(n)
        if n.startswith('Prop_') and n not in dead:
            src = open(fp).read()
            names = re.findall(r'^Print Assumptions ([\w\']+)\.', src, re.M)
            outs = re.findall(r'^(Closed under the global context|Axioms:)', out, re.M)
            if len(names) != len(outs): rec['warn'] = f'{n}: {len(names)} vs {len(outs)}'
            theorems += [a for a, b in zip(names, outs) if b.startswith('Axioms')]
    rec['failed_theorems'] = theorems
    rec['failed_proofs'] = lemmas
    rec['failed_examples'] = examples
    rec['caught'] = bool(theorems)
    rec['seconds'] = round(time.time() - t0)
    shutil.rmtree(d, ignore_errors=True)
    return rec

if __name__ == '__main__':
    ns = {}
    exec(open(bugfile).read(), ns)
    bugs = ns['bugs']
    os.makedirs(scratch, exist_ok=True)
    bad = [b for b in bugs if open(f'{SRC}/theories/{b[0]}').read().count(b[2]) != 1]
    for b in bad: print('pattern:', b[:3])
    if bad or os.environ.get('CHECK'): sys.exit(bool(bad))
    with ThreadPoolExecutor(workers) as ex, open(outfile, 'a') as o:
        for r in ex.map(lambda x: run(*x), enumerate(bugs)):
            o.write(json.dumps(r) + '\n'); o.flush()
            print(r['definition'], r.get('caught'), len(r.get('failed_theorems', [])), r.get('seconds'), r.get('error', ''), r.get('broken_files', ''), flush=True)
