#!/usr/bin/env python3
"""Transcribes the unrolled loops of the packed <-> sliced conversions into Coq tables.
Usage: gen_conv.py /repo/src > rocq/theories/ConvTable.v
The script fails unless every statement has one of the expected forms."""
import re, sys
SRC = sys.argv[1] + '/'
MASK = {2: 'xaaaaaaaa', 4: 'x88888888', 8: 'x80808080', 16: 'x80008000'}
def load(name):
    s = open(SRC + name).read()
    s = re.sub(r'/\*.*?\*/', lambda m: '\n' * m.group().count('\n'), s, flags=re.S)
    return re.sub(r'//[^\n]*', '', s)
def expand(s):
    """the two macros of conversion_slice16.c"""
    bulk = re.search(r'#define word_slice_64_16_combine_bulk\(T, Ti, F, Fi, shift\)((?:.*\\\n)*.*\n)', s).group(1).replace('\\\n', ' ')
    rest = re.search(r'#define word_slice_64_16_slice_rest\(F, Fi, shift\)((?:.*\\\n)*.*\n)', s).group(1).replace('\\\n', ' ')
    def b(m):
        T, Ti, F, Fi, sh = [x.strip() for x in m.group(1).split(',')]
        return bulk.replace('T[Ti]', '%s[%s]' % (T, Ti)).replace('F[Fi', '%s[%s' % (F, Fi)).replace('shift', sh).strip()
    def r(m):
        F, Fi, sh = [x.strip() for x in m.group(1).split(',')]
        return rest.replace('F[Fi]', '%s[%s]' % (F, Fi)).replace('shift', sh).strip()
    body = s[s.index('mzd_slice_t *_mzed_slice16'):]
    head = s[:s.index('mzd_slice_t *_mzed_slice16')]
    body = re.sub(r'word_slice_64_16_combine_bulk\(([^()]*)\);', b, body)
    body = re.sub(r'word_slice_64_16_slice_rest\(([^()]*)\);', r, body)
    return '\n' * head.count('\n') + body
def leftover(e, rx):
    r = re.sub(rx, '', e)
    assert re.fullmatch(r'[\s|()\\]*', r), (e, r)
SL = r'word_slice_64_(\d+)\(f\[j\+ ?(\d+)\]<< ?(\d+) & (x\w+)\)(?:>> *(\d+))?'
CL = r'word_cling_64_(\d+)\(f(\d+)\[j2\]<< ?(\d+)\)>> ?(\d+)'
def sl_terms(w, e):
    leftover(e, SL)
    out = []
    for (W, k, a, m, b) in re.findall(SL, e):
        assert int(W) == w and m == MASK[w], e
        out.append((int(k), int(a), int(b or 0)))
    return out
def cl_terms(w, e, ptr):
    leftover(e, CL)
    out = []
    for (W, t, a, b) in re.findall(CL, e):
        assert int(W) == w, e
        out.append((ptr[t], int(a), int(b)))
    return out
def passes(text, base):
    heads = [m for m in re.finditer(r'for\((?:size_t|rci_t) i=0; i<T->nrows; i\+\+\) \{', text)]
    for n, m in enumerate(heads):
        end = heads[n + 1].start() if n + 1 < len(heads) else len(text)
        yield base + text[:m.start()].count('\n'), base + text[:end].rstrip().count('\n'), text[m.end():end]
def split(w, chunk):
    m = re.search(r'for\(j=0, j2=0; j\+%d < [FT]->x->width; j\+=%d, ?j2\+\+\) \{' % (w, w), chunk)
    decl, rest = chunk[:m.start()], chunk[m.end():]
    i = rest.index('}')
    bulk, rest = rest[:i], rest[i + 1:]
    return decl, bulk, rest
def stmts(s): return [re.sub(r'\s+', ' ', x.replace('\\\n', ' ')).strip() for x in s.split(';') if x.strip()]
def slice_pass(w, chunk):
    decl, bulk, rest = split(w, chunk)
    ptr = {}
    for st in stmts(decl):
        m = re.fullmatch(r'word \*t(\d+) = T->x\[ ?(\d+)\]->rows\[i\]', st)
        if m: ptr[m.group(1)] = int(m.group(2)); continue
        assert re.fullmatch(r'const word \*( const)? ?f = F->x->rows\[i\]', st), st
    env = {}
    def sub(e):
        for v in sorted(env): e = re.sub(r'\b%s\b' % v, lambda _: env[v], e)
        return e
    B = []; op = set()
    for st in stmts(bulk):
        if st == 'r0 = f[j+0], r1 = f[j+1]': env['r0'] = 'f[j+0]'; env['r1'] = 'f[j+1]'; continue
        m = re.fullmatch(r'(r[23]) = (.*)', st)
        if m and w == 2: v = sub(m.group(2)); env[m.group(1)] = v; continue
        m = re.fullmatch(r't(\d+)\[j2\] (\|?=) (.*)', st)
        assert m, st
        op.add(m.group(2)); B.append((ptr[m.group(1)], sl_terms(w, sub(m.group(3)))))
    assert len(op) == 1
    if w == 2:
        B = [(t, sorted(l)) for (t, l) in B]
    # rest
    groups = {}; lab = None; clear = False; final = []; init = None; broke = {}
    sw = rest.index('switch(F->x->width - j) {')
    for st in stmts(rest[:sw]):
        assert re.fullmatch(r'(r\d = )+0', st), st; init = [int(x) for x in re.findall(r'r(\d)', st)]
    body = rest[sw + len('switch(F->x->width - j) {'):]
    i = body.index('}'); body, after = body[:i], body[i + 1:]
    acc = {}
    for st in stmts(body):
        m = re.match(r'(?:case +(\d+)|(default)): ?', st)
        if m:
            lab = m.group(1) and int(m.group(1)); st = st[m.end():].strip()
            if lab is not None: groups[lab] = []; env = {}
            if not st: continue
        if lab is None: assert st == 'm4ri_die("impossible")', st; continue
        if st == 'break': broke[lab] = True; continue
        if w == 2:
            if re.fullmatch(r'r[01] = f\[j\+[01]\]', st): env[st[:2]] = st[5:]; continue
            m = re.fullmatch(r'(r[23]) = (.*)', st)
            if m: env[m.group(1)] = sub(m.group(2)); continue
            m = re.fullmatch(r't(\d)\[j2\] &= ~bitmask_end', st)
            if m: clear = True; acc['c%s%d' % (m.group(1), lab)] = 1; continue
            m = re.fullmatch(r't(\d)\[j2\] \|= (.*) & bitmask_end', st); assert m, st
            assert acc['c%s%d' % (m.group(1), lab)]
            for x in sl_terms(2, sub(m.group(2))): groups[lab].append((ptr[m.group(1)], x))
        else:
            m = re.fullmatch(r'r(\d) \|= (.*)', st); assert m, st
            for x in sl_terms(w, m.group(2)): groups[lab].append((ptr[m.group(1)], x))
    if w == 2:
        assert broke == {1: True, 2: True}
        assert all(x in groups[2] for x in groups[1])
        groups[2] = [x for x in groups[2] if x not in groups[1]]
    else:
        assert set(broke) == {1} and init is not None and all(str(t) in map(str, init) for t in ptr)
        fin = {}
        for st in stmts(after.replace('}', '').split('else')[0].split('if')[0].split('switch')[0].split('return')[0].split('break')[0]):
            m = re.fullmatch(r't(\d)\[j2\] \|= r(\d) & bitmask_end', st)
            assert m and m.group(1) == m.group(2), st
            fin[m.group(1)] = 1
        assert set(fin) == set(ptr), (fin, ptr)
    assert sorted(groups) == list(range(1, w + 1))
    return ('true' if op == {'='} else 'false', 'true' if clear else 'false', B, [groups[n] for n in range(1, w + 1)])
def cling_pass(w, chunk):
    decl, bulk, rest = split(w, chunk)
    ptr = {}
    for st in stmts(decl):
        m = re.fullmatch(r'const word \*f(\d+) = F->x\[ ?(\d+)\]->rows\[i\]', st)
        if m: ptr[m.group(1)] = int(m.group(2)); continue
        assert re.fullmatch(r'word \*t = T->x->rows\[i\]', st), st
    B = []; op = set()
    for st in stmts(bulk):
        m = re.fullmatch(r't\[j\+ ?(\d+)\] (\|?=) (.*)', st); assert m, st
        op.add(m.group(2)); B.append((int(m.group(1)), cl_terms(w, m.group(3), ptr)))
    assert [k for (k, _) in B] == list(range(w)), B
    sw = rest.index('switch(T->x->width - j) {')
    pre = stmts(rest[:sw])
    save = [x.replace('tmp=', 'tmp =').replace('width - 1', 'width-1') for x in pre] == ['register word tmp = t[T->x->width-1]']
    assert save or pre in ([], ['register word tmp=0']), pre
    body = rest[sw + len('switch(T->x->width - j) {'):]
    i = body.index('}'); body, after = body[:i], body[i + 1:]
    groups = {}; lab = None; broke = {}
    for st in stmts(body):
        m = re.match(r'(?:case +(\d+)|(default)): ?', st)
        if m:
            lab = m.group(1) and int(m.group(1)); st = st[m.end():].strip()
            if lab is not None: groups[lab] = []
            if not st: continue
        if lab is None: assert st == 'm4ri_die("impossible")', st; continue
        if st == 'break': broke[lab] = True; continue
        if not save:
            if re.fullmatch(r't\[j\+%d\] = \(t\[j\+%d\] & ~bitmask_end\) \| \(tmp & bitmask_end\)' % (lab - 1, lab - 1), st): groups[lab].append('m'); continue
            m = re.fullmatch(r'tmp (=) (.*)', st)
            if m: groups[lab].append((lab - 1, cl_terms(w, m.group(2), ptr))); continue
        m = re.fullmatch(r't\[j\+ ?(\d+)\] (\|?=) (.*)', st); assert m, st
        op.add(m.group(2)); groups[lab].append((int(m.group(1)), cl_terms(w, m.group(3), ptr)))
    assert len(op) == 1
    if save:
        assert all(len(groups[n]) == 1 and groups[n][0][0] == n - 1 for n in groups) and set(broke) == {1}
        assert 't[T->x->width-1] = (t[T->x->width-1] & bitmask_end) | (tmp & ~bitmask_end);' in after.replace('width - 1', 'width-1')
        R = [groups[n][0] for n in range(1, w + 1)]
    else:
        R = [[x for x in groups[n] if x != 'm' and x[0] == n - 1][0] for n in range(1, w + 1)]
        for n in range(1, w + 1):
            assert broke[n] and groups[n][-1] == 'm' and sorted(x for x in groups[n] if x != 'm') == [R[k] for k in range(n)], groups[n]
    return ('true' if op == {'='} else 'false', B, R)
def nl(l): return '[' + '; '.join(l) + ']'
def tr(x): return '(%d, %d, %d)' % x
def put_slice(name, cite, p):
    s, c, B, R = p
    print('(** %s *)' % cite)
    print('Definition %s : spass := SPass %s %s' % (name, s, c))
    print('  ' + nl(['(%d, %s)' % (t, nl(map(tr, l))) for (t, l) in B]).replace('); (', ');\n   (').replace(');\n   (', '); ('))
    print('  ' + nl([nl(['(%d, %s)' % (t, tr(x)) for (t, x) in g]) for g in R]) + '.')
def put_cling(name, cite, p):
    s, B, R = p
    print('(** %s *)' % cite)
    print('Definition %s : cpass := CPass %s' % (name, s))
    print('  ' + nl(['(%d, %s)' % (t, nl(map(tr, l))) for (t, l) in B]))
    print('  ' + nl(['(%d, %s)' % (t, nl(map(tr, l))) for (t, l) in R]) + '.')
print('''(** Generated by gen/gen_conv.py from src/conversion*.c; do not edit. *)
From Coq Require Import List.
Import ListNotations.
(** One pass over the rows packed -> sliced. [sp_set]: the bulk loop assigns (=) instead of (|=).
    [sp_clear]: the last word is first cleared with &= ~bitmask_end.
    [sp_bulk]: for each target slice t the terms (k, a, b) of  t_t[j2] (|)= OR_k word_slice(f[j+k] << a & topmask) >> b.
    [sp_rest]: entry n-1 holds what the switch label n contributes (with fallthrough to the smaller labels):
    (t, (k, a, b)) for r_t |= word_slice(f[j+k] << a & topmask) >> b. *)
Record spass := SPass { sp_set : bool; sp_clear : bool; sp_bulk : list (nat * list (nat * nat * nat)); sp_rest : list (list (nat * (nat * nat * nat))) }.
(** One pass over the rows sliced -> packed. [cp_bulk]: entry (k, terms (t, a, b)) for
    t[j+k] (|)= OR_t word_cling(f_t[j2] << a) >> b; [cp_rest]: entry n-1 is what label n of the switch assigns. *)
Record cpass := CPass { cp_set : bool; cp_bulk : list (nat * list (nat * nat * nat)); cp_rest : list (nat * list (nat * nat * nat)) }.''')
def func(s, start, end):
    i = s.index(start); j = s.index(end, i) if end else len(s)
    return s[i:j], s[:i].count('\n') + 1
c = load('conversion.c')
t, b = func(c, 'mzd_slice_t *_mzed_slice2', 'mzed_t *_mzed_cling2')
ps = list(passes(t, b)); assert len(ps) == 1
put_slice('slice2_d2', 'conversion.c:%d-%d [_mzed_slice2]' % ps[0][:2], slice_pass(2, ps[0][2]))
t, b = func(c, 'mzed_t *_mzed_cling2', 'mzd_slice_t *_mzed_slice4')
ps = list(passes(t, b)); assert len(ps) == 1
put_cling('cling2_d2', 'conversion.c:%d-%d [_mzed_cling2]' % ps[0][:2], cling_pass(2, ps[0][2]))
t, b = func(c, 'mzd_slice_t *_mzed_slice4', 'mzed_t *_mzed_cling4')
ps = list(passes(t, b)); assert len(ps) == 2
for p, d in zip(ps, (3, 4)): put_slice('slice4_d%d' % d, 'conversion.c:%d-%d [_mzed_slice4], depth %d' % (p[:2] + (d,)), slice_pass(4, p[2]))
t, b = func(c, 'mzed_t *_mzed_cling4', None)
ps = list(passes(t, b)); assert len(ps) == 2
for p, d in zip(ps, (4, 3)): put_cling('cling4_d%d' % d, 'conversion.c:%d-%d [_mzed_cling4], degree %d' % (p[:2] + (d,)), cling_pass(4, p[2]))
c = load('conversion_slice8.c')
t, b = func(c, 'mzd_slice_t *_mzed_slice8', None)
ps = list(passes(t, b)); assert len(ps) == 4 and re.findall(r'case (\d): \{', t) == ['8', '7', '6', '5']
for p, d in zip(ps, (8, 7, 6, 5)): put_slice('slice8_d%d' % d, 'conversion_slice8.c:%d-%d [_mzed_slice8], depth %d' % (p[:2] + (d,)), slice_pass(8, p[2]))
c = load('conversion_cling8.c')
t, b = func(c, 'mzed_t *_mzed_cling8', None)
ps = list(passes(t, b)); assert len(ps) == 4 and re.findall(r'case (\d): \{', t) == ['8', '7', '6', '5']
for p, d in zip(ps, (8, 7, 6, 5)): put_cling('cling8_d%d' % d, 'conversion_cling8.c:%d-%d [_mzed_cling8], degree %d' % (p[:2] + (d,)), cling_pass(8, p[2]))
raw = load('conversion_slice16.c')
t, b = func(raw, 'mzd_slice_t *_mzed_slice16', None)
lines = [p[:2] for p in passes(t, b)]
t, b = func(expand(raw), 'mzd_slice_t *_mzed_slice16', None)
ps = list(passes(t, b))
print('(* slice16 pass slices: %s *)' % '; '.join(' '.join(re.findall(r'T->x\[ ?(\d+)\]', p[2])) for p in ps))
for p, l in zip(ps, lines):
    ts = [int(x) for x in re.findall(r'T->x\[ ?(\d+)\]', p[2])]
    put_slice('slice16_%d_%d' % (ts[0], ts[-1]), 'conversion_slice16.c:%d-%d [_mzed_slice16], slices %d-%d' % (l + (ts[0], ts[-1])), slice_pass(16, p[2]))
c = load('conversion_cling16.c')
t, b = func(c, 'mzed_t *_mzed_cling16', None)
ps = list(passes(t, b))
for p in ps:
    ts = [int(x) for x in re.findall(r'F->x\[ ?(\d+)\]', p[2])]
    put_cling('cling16_%d_%d' % (ts[0], ts[-1]), 'conversion_cling16.c:%d-%d [_mzed_cling16], slices %d-%d' % (p[:2] + (ts[0], ts[-1])), cling_pass(16, p[2]))
