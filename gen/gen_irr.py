#!/usr/bin/env python3
"""Extract the tables of irreducible polynomials of /repo/src/gf2e.c into IrrTable.v."""
import re,sys
src=open('/repo/src/gf2e.c').read()
lines=src.split('\n')
out=['(** GENERATED by gen/gen_irr.py from /repo/src/gf2e.c (lines 69-84): the arrays','    [_irreducible_polynomials_degree_NN] word for word (first entry: the count), and','    [irreducible_polynomials] (gf2e.c:86-93; index 0 is NULL, modelled as []). *)','From Coq Require Import NArith List.','Import ListNotations.','Local Open Scope N_scope.']
names=[]
for ln,l in enumerate(lines,1):
    m=re.match(r'const word (_irreducible_polynomials_degree_(\d\d))\[\s*(\d+)\]\s*=\s*\{(.*)\};',l)
    if m:
        vals=[int(x,0) for x in m.group(4).split(',')]
        assert len(vals)==int(m.group(3))
        nm='irreducible_polynomials_degree_'+m.group(2)
        names.append(nm)
        out.append('(* gf2e.c:%d, declared length %s *)'%(ln,m.group(3)))
        body=[]
        for i in range(0,len(vals),16):
            body.append('; '.join(str(v) for v in vals[i:i+16]))
        out.append('Definition %s : list N :=\n [%s].'%(nm,';\n  '.join(body)))
assert len(names)==16
out.append('Definition irreducible_polynomials : list (list N) :=\n  [[]; %s].'%(';\n   '.join(names)))
open('/verif/rocq/theories/IrrTable.v','w').write('\n'.join(out)+'\n')
