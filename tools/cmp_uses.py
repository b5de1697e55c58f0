#!/usr/bin/env python3
"""Compares `uses` of Features.v with the sources of gvariant: for every name that
depends on features, the lines it stands in and the cfg attribute they are under.
Comments, strings, tests and imported paths such as core::fmt::Write are left out."""
import re, sys
SRC = '/repo/gvariant/src/'
FILES = {'AlignedBytesRs': 'aligned_bytes.rs', 'BufRs': 'buf.rs', 'CastingRs': 'casting.rs', 'LibRs': 'lib.rs', 'OffsetRs': 'offset.rs'}
WHOLE = {'BufRs': 'IfAlloc'}                 # lib.rs:308-309
NAMES = {'StdCrate': r'(?<![\w:])std\s*::', 'AllocCrate': r'(?<![\w:])alloc\s*::', 'WriteTrait': r'(?<![\w:])Write\b',
         'StringType': r'(?<![\w:])String\b', 'BufModule': r'(?<!\w)buf\s*::'}

def blank(text):
    """Comments and literals replaced by spaces, lines kept."""
    pat = r'//[^\n]*|/\*.*?\*/|b?"(?:\\.|[^"\\])*"|b?\'(?:\\[^\n]+?|[^\\\'\n])\''
    return re.sub(pat, lambda m: re.sub(r'[^\n]', ' ', m.group()), text, flags=re.S)

def item_end(text, i):
    """The end of the item, field or statement that begins at i."""
    depth = 0
    while i < len(text):
        c = text[i]
        if c in '([{': depth += 1
        elif c in ')]}':
            depth -= 1
            if depth < 0: return i
            if depth == 0 and c == '}': return i + 1
        elif depth == 0 and c == ';': return i + 1
        i += 1
    return i

found = set()
for f, name in FILES.items():
    raw = open(SRC + name).read()
    text = blank(raw)
    under = []                               # (from, to, cfg)
    for m in re.finditer(r'#\[cfg\((.*?)\)\]', raw):
        if not text.startswith('#[cfg(', m.start()): continue
        i = m.end()
        while True:                          # further attributes
            k = re.compile(r'\s*#\[[^\]]*\]').match(text, i)
            if not k: break
            i = k.end()
        under.append((m.end(), item_end(text, i), m.group(1)))
    for n, pat in NAMES.items():
        for m in re.finditer(pat, text):
            cs = [c for a, b, c in under if a <= m.start() < b]
            if 'test' in cs: continue
            assert not any(c.startswith('not') for c in cs), (f, m.start())
            g = 'IfStd' if 'feature = "std"' in cs else 'IfAlloc' if 'feature = "alloc"' in cs else WHOLE.get(f, 'Always')
            found.add((f, text.count('\n', 0, m.start()) + 1, g, n))
model = re.findall(r'Use (\w+) (\d+) (\w+) (\w+)', open(sys.argv[1] if len(sys.argv) > 1 else '/verif/rocq/theories/Features.v').read())
listed = {(f, int(l), g, n) for f, l, g, n in model}
assert len(listed) == len(model), 'listed twice'
for u in sorted(found - listed): print('not listed:', *u)
for u in sorted(listed - found): print('not in the sources:', *u)
print(len(found), 'uses,', len(listed), 'listed')
sys.exit(found != listed)
