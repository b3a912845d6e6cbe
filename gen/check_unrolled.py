#!/usr/bin/env python3
"""Fidelity aid (not part of the proofs): checks that the unrolled switch statements of
mzed_rescale_row (mzed.h) and mzed_add_multiple_of_row (mzed.c) are regular, i.e. that
  - 'start' case k computes lane k with shift w*k and falls through to k+1,
  - 'bulk' sequences compute lanes 0..64/w-1 in order,
  - 'end' case n (n = ncols % 64, 0 meaning 64) computes the lane ending at bit n and falls
    through to the next smaller multiple of w,
so that the loops used in MzedModel.v are the same computations."""
import re
def body(fn,start):
    s=open(fn).read(); i=s.index(start); j=s.index('\n}\n',i); return s[i:j]
for fn,start in (('/repo/src/mzed.h','static inline void mzed_rescale_row'),('/repo/src/mzed.c','void mzed_add_multiple_of_row(mzed_t *A')):
    b=body(fn,start)
    parts=re.split(r'if ?\(A->w == (\d+)\)',b)
    for w,txt in zip(parts[1::2],parts[2::2]):
        w=int(w); L=64//w; mask=(1<<w)-1
        txt=txt.split('} else {\n    for(rci_t')[0]
        sw=re.findall(r'switch\((.*?)\) *\{(.*?)\n    \}',txt,re.S)
        assert len(sw)==2,(w,len(sw))
        # start switch
        head,cases=sw[0]
        assert re.sub(r'\s','',head) in ('(start/%d)%%%d'%(w,L),),head
        ls=[l for l in cases.split('\n') if 'case' in l]
        assert len(ls)==L
        for k,l in enumerate(ls):
            m=re.match(r'\s*case\s+(\d+):\s+(\w+) \^= ff->mul\(ff, x, \(?(\w+) & 0x([0-9A-F]+)ULL\)?\)<<\s*(\d+);(.*)$',l)
            assert m,l
            assert int(m.group(1))==k and int(m.group(4),16)==mask and int(m.group(5))==w*k,l
            rest=m.group(6).strip()
            assert rest==('break;' if k==L-1 else '%s >>= %d;'%(m.group(3),w)) or (k==L-1 and rest.endswith('break;')),l
        head,cases=sw[1]
        assert re.sub(r'\s','',head) in ('to_x->ncols%m4ri_radix','A->x->ncols%m4ri_radix'),head
        ls=[l for l in cases.split('\n') if 'case' in l]
        assert len(ls)==L,(w,len(ls))
        for n,l in enumerate(ls):
            m=re.match(r'\s*case\s+(\d+):\s+(_t\[j\]|__t) \^= ff->mul\(ff, x, \((_f\[j\]|_a\[j\]) & 0x([0-9A-F]+)ULL\)>>\s*(\d+)\)<<\s*(\d+);\s*(break;)?\s*$',l)
            assert m,l
            end=64-w*n
            assert int(m.group(1))==end%64 and int(m.group(5))==end-w and int(m.group(6))==end-w and int(m.group(4),16)==mask<<(end-w),l
            assert m.group(7) is None or n==L-1,l
        # bulk
        mid=txt[txt.index('for(j=startblock+1'):]
        mid=mid[:mid.rindex('switch')]
        seqs={}
        for l in mid.split('\n'):
            if re.search(r'__[fa][01]? = _[fa]\[',l):
                for v in re.findall(r'__t([01]?) =',l): seqs[v]=0
            m=re.match(r'\s*__t([01]?) \^= ff->mul\(ff, x, \(?__[fa]([01]?) & 0x([0-9A-F]+)ULL\)?\)<<\s*(\d+);\s*(?:__[fa]([01]?) >>= (\d+);)?\s*$',l)
            if m:
                v=m.group(1); assert m.group(2)==v
                k=seqs[v]; seqs[v]+=1
                assert int(m.group(3),16)==mask and int(m.group(4))==w*k,l
                if k<L-1: assert int(m.group(6))==w and m.group(5)==v
            elif re.search(r'_[ta]\[j(\+\d)?\] = __t',l):
                v=re.search(r'__t([01]?);',l).group(1); assert seqs[v]==L,(l,seqs)
        print(fn,w,'ok')
