#!/usr/bin/env python3
"""mutants.py SEED COUNT FILE...: write a bug file for seed.py with COUNT small
changes to each model file, drawn at random: constants, connectives,
comparisons, branches, order of arguments.  Changes that do not type are left out."""
import os, random, re, subprocess, sys, tempfile
random.seed(int(sys.argv[1])); count = int(sys.argv[2])
OPS = [(r'\btrue\b', 'false'), (r'\bfalse\b', 'true'), (r'&&', '||'), (r'\|\|', '&&'), (r' \+ ', ' - '), (r' - ', ' + '),
       (r'(?<![<])<\?', '<=?'), (r'<=\?', '<?'), (r'(?<![<])=\?', '<=?'), (r'\bOk true\b', 'Ok false'), (r'\bOk false\b', 'Ok true'),
       (r'\bfst\b', 'snd'), (r'\bsnd\b', 'fst'), (r'\btake\b', 'drop'), (r'\bdrop\b', 'take'), (r' \* ', ' + '), (r' / ', ' mod '), (r' mod ', ' / '),
       (r'\bforallb\b', 'existsb'), (r'\bexistsb\b', 'forallb'), (r'\bTS\b', 'TY'), (r'\bTI\b', 'TU'), (r'\bTD\b', 'TX'), (r'\bTB\b', 'TY'), (r'\bTO\b', 'TV'),
       (r'\bPIndex\b', 'PUnwrap'), (r'\bPUnwrap\b', 'POverflow'), (r'\bNone\b', 'Some 0'), (r'\bLt\b', 'Gt'), (r'\bGt\b', 'Lt'), (r'\bEq\b', 'Lt')]
KEY = set('let in match with if then else end fun fix forall as return do Definition Fixpoint struct'.split())
def swap(m): return None if {m.group(1), m.group(2)} & KEY or m.group(1) == m.group(2) else m.group(2) + ' ' + m.group(1)
MORE = [(r'\b([a-z_]\w*) ([a-z_]\w*)\b', swap), (r'\bif ([^\n]*?) then', lambda m: 'if negb (' + m.group(1) + ') then'),
        (r'let\* _ := [^\n]* in', lambda m: ''), (r'\bSome \w+', lambda m: 'None'),
        (r'(\b\w+) \+\+ (\w+)\b', lambda m: m.group(2) + ' ++ ' + m.group(1)), (r'\bOk (\w+)\b', lambda m: 'Crash PAssert')]
def comment_before(t, pos):
    e = t.rfind('*)', 0, pos)
    s = t.rfind('(**', 0, e)
    return re.sub(r'\s+', ' ', t[s+3:e]).strip()[:160] if s >= 0 else ''
def types(f, text):
    """Does the changed model file still compile?"""
    with tempfile.TemporaryDirectory() as d:
        os.mkdir(d + '/Verif')
        open(f'{d}/Verif/{f}', 'w').write(text)
        p = subprocess.run(['timeout', '60', 'coqc', '-q', '-Q', SRC, 'Verif', f'{d}/Verif/{f}'], capture_output=True)
        return p.returncode == 0
SRC = os.environ.get('SEED_SRC', '/verif/rocq') + '/theories'
out = []
for f in sys.argv[3:]:
    t = open(SRC + '/' + f).read()
    heads = [(m.start(), m.group(2)) for m in re.finditer(r'^(Definition|Fixpoint|Inductive|with|Record|Class|Instance)\s+([\w\']+)', t, re.M)]
    code = []
    depth = 0; i = 0
    mask = bytearray(len(t))
    while i < len(t):
        if t.startswith('(*', i) and t[i:i+3] != '(*)': depth += 1; i += 2; continue
        if t.startswith('*)', i) and depth: depth -= 1; i += 2; continue
        mask[i] = depth == 0; i += 1
    cands = []
    for k, (s, n) in enumerate(heads):
        e = heads[k+1][0] if k + 1 < len(heads) else len(t)
        b = t.find(':=', s)
        for p, r in OPS:
            for m in re.finditer(p, t[b:e]):
                a, z = b + m.start(), b + m.end()
                if mask[a]: cands.append((n, a, z, r))
        for p, r in MORE:
            for m in re.finditer(p, t[b:e]):
                a, z = b + m.start(), b + m.end()
                if mask[a] and r(m) is not None: cands.append((n, a, z, r(m)))
        for m in re.finditer(r'(?<![\w.])(\d+)(?![\w.])', t[b:e]):
            a, z = b + m.start(), b + m.end()
            if mask[a]: cands.append((n, a, z, str(int(m.group(1)) + 1)))
    random.shuffle(cands)
    got = 0
    for n, a, z, r in cands:
        if got == count: break
        if not types(f, t[:a] + r + t[z:]): continue
        got += 1
        ls = t.rfind('\n', 0, a) + 1; le = t.find('\n', z); le = len(t) if le < 0 else le
        while t.count(t[ls:le]) > 1 and ls > 1: ls = t.rfind('\n', 0, ls - 1) + 1
        h = [s for s, _ in heads if s <= a][-1]
        out.append((f, n, t[ls:le], t[ls:a] + r + t[z:le], 'mutant of: ' + comment_before(t, h)))
print('bugs = [')
for o in out: print(repr(o) + ',')
print(']')
