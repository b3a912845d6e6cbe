#!/usr/bin/env python3
"""Extracts _small_multiplication_map and costs[] from /repo/src/blm.c into BlmTable.v, and computes for every degree
two certificates (checked in Coq): the final linear map of the bilinear algorithm, and a combination of pairs (v,w)
for every unit vector (the points x^v, x^w span)."""
import re,sys
src=open('/repo/src/blm.c').read()
body=src[src.index('mzd_t *_small_multiplication_map'):src.index('mzd_t *_crt_modred_mat')]
maps={}
for m in re.finditer(r'case\s+(\d+):(.*?)return A;',body,re.S):
    d=int(m.group(1)); t=m.group(2)
    nr,nc=map(int,re.search(r'mzd_init\((\d+),\s*(\d+)\)',t).groups())
    assert nc==d
    rows={}
    for a,v in re.findall(r'A->rows\[\s*(\d+)\]\[0\]\s*=\s*(0x[0-9a-f]+);',t):
        assert int(a) not in rows
        rows[int(a)]=int(v,16)
    assert sorted(rows)==list(range(nr)),(d,nr,sorted(rows))
    maps[d]=[rows[i] for i in range(nr)]
costs=[int(x) for x in re.search(r'\nconst int costs\[17\] = \{([^}]*)\}',src).group(1).split(',')]
assert len(costs)==17
def solve(d):
    N=maps[d]; m=len(N)
    pairs=[(v,w) for v in range(d) for w in range(v,d)]
    c={}
    for v,w in pairs: c[v,w]=sum(1<<k for k in range(m) if N[k]>>v&1 and N[k]>>w&1)
    # eliminate, tracking combination of pairs
    rows=[]  # (vec, combo set)
    piv={}
    for p in pairs:
        x=c[p]; s={p}
        for b in sorted(piv):
            if x>>b&1:
                y,t=piv[b]; x^=y; s=s^t
        if x:
            b=(x&-x).bit_length()-1
            for b2 in list(piv):
                y,t=piv[b2]
                if y>>b&1: piv[b2]=(y^x,t^s)
            piv[b]=(x,s)
    assert len(piv)==m,(d,len(piv),m)
    K=[]
    for k in range(m):
        x,s=piv[k]
        assert x==1<<k
        K.append(sorted(s))
    # final map: col_k = sum of x^(v+w) over K[k]
    H=[]
    for k in range(m):
        q=0
        for v,w in K[k]: q^=1<<(v+w)
        H.append(q)
    for v in range(d):
        for w in range(d):
            q=0
            for k in range(m):
                if N[k]>>v&1 and N[k]>>w&1: q^=H[k]
            assert q==1<<(v+w)
    return H,K
out=[]
out.append('(** Generated by gen/gen_blm.py from src/blm.c: do not edit. *)\nFrom Coq Require Import NArith List.\nImport ListNotations.\nLocal Open Scope N_scope.\n')
out.append('(** blm.c:484 [costs] *)\nDefinition costs : list nat := [%s]%%nat.\n'%'; '.join(map(str,costs)))
out.append('(** blm.c:153-334 [_small_multiplication_map]: the rows (column j is bit j), for degree 1, 2, ... *)\nDefinition small_maps : list (list N) := [')
out.append(';\n'.join('  ['+'; '.join('0x%x'%v for v in maps[d])+']' for d in range(1,17))+'].\n')
sol={d:solve(d) for d in range(1,17)}
out.append('(** certificate: the columns of the final linear map (bit i is row i) *)\nDefinition small_cert : list (list N) := [')
out.append(';\n'.join('  ['+'; '.join('0x%x'%v for v in sol[d][0])+']' for d in range(1,17))+'].\n')
out.append('(** certificate: for every unit vector the pairs (v, w), v <= w, to be added; pair as 16*v+w *)\nDefinition small_span : list (list (list N)) := [')
out.append(';\n'.join('  ['+';\n   '.join('['+'; '.join(str(16*v+w) for v,w in s)+']' for s in sol[d][1])+']' for d in range(1,17))+'].\n')
open('/verif/rocq/theories/BlmTable.v','w').write('\n'.join(out))
