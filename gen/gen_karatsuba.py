#!/usr/bin/env python3
"""Transcribes the straight-line programs of /repo/src/karatsuba.c into Coq lists.
Usage: gen_karatsuba.py /repo/src/karatsuba.c > rocq/theories/KaratsubaTable.v
Every statement of every function must match one of the expected forms, else the script fails."""
import re, sys
src = open(sys.argv[1]).read()
src = re.sub(r'/\*.*?\*/', lambda m: '\n' * m.group().count('\n'), src, flags=re.S)
src = re.sub(r'//[^\n]*', '', src)
print("(** Generated by gen/gen_karatsuba.py from src/karatsuba.c; do not edit. One entry per call of")
print("    _mzd_ptr_add_to_all(ff, mzd_mul(t0, <sum of a's>, <sum of b's>, 0), X, n, targets):")
print("    the indices summed on the left, those summed on the right, and the target exponents. *)")
print("From Coq Require Import List.\nImport ListNotations.")
parts = re.split(r'void _mzd_ptr_addmul_karatsuba', src)
line = parts[0].count('\n') + 1
def operand(t, v, s):
    s = s.strip()
    m = re.fullmatch(v + r'(\d+)', s)
    if m: return [int(m.group(1))]
    m = re.fullmatch(r'mzd_add\(%s, %s(\d+), ?%s(\d+)\)' % (t, v, v), s)
    if m: return [int(m.group(1)), int(m.group(2))]
    m = re.fullmatch(r'mzd_sum\(%s, ?(\d+),([^)]*)\)' % t, s)
    assert m, s
    idx = [x.strip() for x in m.group(2).split(',')]
    assert len(idx) == int(m.group(1)) and all(re.fullmatch(v + r'\d+', x) for x in idx), s
    return [int(x[1:]) for x in idx]
def lst(l): return '[' + '; '.join(map(str, l)) + ']'
for f in parts[1:]:
    n = int(re.match(r'\d+', f).group())
    first = line
    line += f.count('\n')
    last = line - 1
    body = f[f.index('{') + 1:f.index('}')]
    steps = []; decl = set(); inits = []
    for st in body.split(';'):
        st = re.sub(r'\s+', ' ', st).strip()
        if not st: continue
        m = re.fullmatch(r'const mzd_t \*([ab])(\d+) = ([AB])\[ ?(\d+)\]', st)
        if m:
            assert m.group(2) == m.group(4) and m.group(1).upper() == m.group(3)
            decl.add(m.group(1) + m.group(2)); continue
        if re.fullmatch(r'mzd_free\(t[012]\)', st): continue
        m = re.fullmatch(r'(?:mzd_t \*)?(t[012]) = mzd_init\(([ab])[01]->nrows, ([ab])[01]->ncols\)', st)
        if m: inits.append(m.groups()); continue
        if n == 2 and st == 'mzd_addmul(X[1], mzd_add(t0, a0, a1), mzd_add(t1, b0, b1), 0)': continue
        m = re.fullmatch(r'_mzd_ptr_add_to_all\(ff, ?mzd_mul\(t0, (.*), (b\d+|mzd_(?:sum|add)\([^()]*\)), 0\), X, ?(\d+), ?([\d, ]*)\)', st)
        assert m, st
        ts = [int(x) for x in m.group(4).split(',')]
        assert len(ts) == int(m.group(3)), st
        steps.append((operand('t1', 'a', m.group(1)), operand('t2', 'b', m.group(2)), ts))
    assert decl == {v + str(i) for v in 'ab' for i in range(n)}, (n, decl)
    assert inits == ([('t0','a','a'),('t1','b','b'),('t0','a','b')] if n == 2 else [('t0','a','b'),('t1','a','a'),('t2','b','b')]), inits
    print("(** src/karatsuba.c:%d-%d [_mzd_ptr_addmul_karatsuba%d]%s *)" % (first, last, n, ' after its initial mzd_addmul(X[1], a0+a1, b0+b1)' if n == 2 else ''))
    print("Definition kara%d : list (list nat * list nat * list nat) := [" % n)
    print(';\n'.join('  (%s, %s, %s)' % tuple(map(lst, s)) for s in steps))
    print("].")
