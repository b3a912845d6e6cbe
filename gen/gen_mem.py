#!/usr/bin/env python3
"""Transcribes the C functions of /repo/m4rie that allocate or release memory into the language of MemLang.v.
   usage: gen_mem.py > rocq/theories/MemLib.v
   Hand-written transcriptions (constructors, destructors, functions with local arrays of pointers) are in HAND below."""
import re,sys,os
SRC='/repo/m4rie/'
FILES=['gf2e.h','gf2e.c','mzed.h','mzed.c','mzd_slice.h','mzd_slice.c','mzd_poly.h','mzd_poly.c','mzd_ptr.h','mzd_ptr.c','newton_john.h','newton_john.c','ple.h','ple.c','strassen.h','strassen.c','trsm.h','trsm.c','echelonform.h','echelonform.c','conversion.h','conversion.c','karatsuba.c','blm.h','blm.c','permutation.h','m4ri_functions.h']
def strip(s):
    s=re.sub(r'/\*.*?\*/',lambda m:re.sub(r'[^\n]',' ',m.group(0)),s,flags=re.S)
    s=re.sub(r'//[^\n]*','',s)
    return re.sub(r'"(\\.|[^"\\])*"','"s"',s)
def unpp(s):
    """preprocessor lines blanked; of #if 0 .. #else .. #endif and #if X .. #else .. #endif the first branch that is compiled"""
    out=[];cont=False;stack=[]
    for ln in s.split('\n'):
        t=ln.strip()
        if cont or t.startswith('#'):
            if not cont:
                if re.match(r'#\s*if\s+0\b',t): stack.append(False)
                elif re.match(r'#\s*if',t): stack.append(True)
                elif re.match(r'#\s*else',t) and stack: stack[-1]=not stack[-1]
                elif re.match(r'#\s*endif',t) and stack: stack.pop()
            cont=ln.rstrip().endswith('\\'); out.append('')
        else: out.append(ln if all(stack) else '')
    return '\n'.join(out)
def funcs(f,sub=None,label=None):
    s=strip(open(SRC+f).read())
    if sub: s=sub(s)
    s=unpp(s)
    res=[];i=0
    while i<len(s):
        if s[i]=='{':
            j=max(s.rfind(';',0,i),s.rfind('}',0,i)); hd=s[j+1:i]
            m=re.search(r'([A-Za-z_]\w*)\s*\(([^()]*)\)\s*$',hd)
            d=0;k=i
            while True:
                if s[k]=='{':d+=1
                if s[k]=='}':
                    d-=1
                    if d==0:break
                k+=1
            if m: res.append(dict(file=label or f,name=m.group(1),params=' '.join(m.group(2).split()),ret=' '.join(hd[:m.start(1)].split()),body=s[i:k+1],line=s[:j+1+m.start(1)].count('\n')+1,end=s[:k].count('\n')+1))
            i=k
        i+=1
    return res
# ---------------------------------------------------------------- parser
TOK=re.compile(r'\s*(?:(?P<n>0[xX][0-9a-fA-F]+[uUlL]*|\d+\.\d*|\d+[uUlL]*)|(?P<i>[A-Za-z_]\w*)|(?P<s>"s"|\'.\')|(?P<o>->|\+\+|--|<<=|>>=|<<|>>|<=|>=|==|!=|&&|\|\||[-+*/%&|^]=|[-+*/%&|^~!<>=?:;,.(){}\[\]]))')
TYPES={'mzd_t','mzed_t','mzd_slice_t','mzd_poly_t','njt_mzed_t','gf2e','blm_t','djb_t','mzp_t','word','rci_t','wi_t','deg_t','int','void','size_t','const','unsigned','long','double','char','struct','static','inline','register'}
def tokens(s):
    out=[];i=0
    while i<len(s):
        if s[i:].strip()=='': break
        m=TOK.match(s,i)
        assert m,s[i:i+60]
        k=m.lastgroup; out.append((k,m.group(k))); i=m.end()
    return out
class P:
    def __init__(self,ts): self.t=ts;self.i=0
    def pk(self,k=0): return self.t[self.i+k][1] if self.i+k<len(self.t) else None
    def kind(self,k=0): return self.t[self.i+k][0] if self.i+k<len(self.t) else None
    def nx(self): self.i+=1; return self.t[self.i-1][1]
    def ex(self,v): x=self.nx(); assert x==v,(v,x,[y[1] for y in self.t[max(0,self.i-10):self.i+10]])
    # expressions
    BIN=[['||'],['&&'],['|'],['^'],['&'],['==','!='],['<','>','<=','>='],['<<','>>'],['+','-'],['*','/','%']]
    def expr(self):
        e=self.assign()
        while self.pk()==',': self.nx(); e=('comma',e,self.assign())
        return e
    def assign(self):
        l=self.cond()
        if self.pk() in ('=','+=','-=','*=','/=','%=','&=','|=','^=','<<=','>>='):
            o=self.nx(); return ('assign',o,l,self.assign())
        return l
    def cond(self):
        c=self.bin(0)
        if self.pk()=='?':
            self.nx(); a=self.expr(); self.ex(':'); return ('cond',c,a,self.cond())
        return c
    def bin(self,n):
        if n==len(self.BIN): return self.unary()
        l=self.bin(n+1)
        while self.pk() in self.BIN[n]:
            o=self.nx(); l=('bin',o,l,self.bin(n+1))
        return l
    def istype(self): return self.kind()=='i' and self.pk() in TYPES
    def unary(self):
        p=self.pk()
        if p in ('!','~','-','+','*','&'): self.nx(); return ('un',p,self.unary())
        if p in ('++','--'): self.nx(); return ('un',p,self.unary())
        if p=='sizeof':
            self.nx(); self.ex('('); d=1
            while d: x=self.nx(); d+= (x=='(')-(x==')')
            return ('num',)
        if p=='(' and self.kind(1)=='i' and self.pk(1) in TYPES:
            self.nx()
            while self.pk()!=')': self.nx()
            self.nx(); return self.unary()
        return self.post()
    def post(self):
        p=self.pk()
        if p=='(': self.nx(); e=self.expr(); self.ex(')')
        elif self.kind()=='i': e=('id',self.nx())
        else: e=('num',self.nx())
        while True:
            p=self.pk()
            if p=='(':
                self.nx(); a=[]
                while self.pk()!=')':
                    a.append(self.assign())
                    if self.pk()==',': self.nx()
                self.nx(); e=('call',e[1],a)
            elif p=='[': self.nx(); x=self.expr(); self.ex(']'); e=('idx',e,x)
            elif p in ('->','.'): self.nx(); e=('fld',e,self.nx())
            elif p in ('++','--'): self.nx(); e=('un',p,e)
            else: return e
    # statements
    def block(self):
        self.ex('{'); out=[]
        while self.pk()!='}': out.append(self.stmt())
        self.nx(); return ('block',out)
    def stmt(self):
        p=self.pk()
        if p=='{': return self.block()
        if p==';': self.nx(); return ('block',[])
        if p=='if':
            self.nx(); self.ex('('); c=self.expr(); self.ex(')'); a=self.stmt(); b=('block',[])
            if self.pk()=='else': self.nx(); b=self.stmt()
            return ('if',c,a,b)
        if p=='while': self.nx(); self.ex('('); c=self.expr(); self.ex(')'); return ('for',('block',[]),c,None,self.stmt())
        if p=='for':
            self.nx(); self.ex('(')
            i=self.decl() if self.istype() else self.exprstmt()
            c=None if self.pk()==';' else self.expr()
            self.ex(';'); n=None if self.pk()==')' else self.expr(); self.ex(')')
            return ('for',i,c,n,self.stmt())
        if p=='switch':
            self.nx(); self.ex('('); c=self.expr(); self.ex(')'); self.ex('{'); items=[]
            while self.pk()!='}':
                if self.pk()=='case':
                    self.nx(); self.cond(); self.ex(':'); items.append('case')
                elif self.pk()=='default': self.nx(); self.ex(':'); items.append('default')
                else: items.append(self.stmt())
            self.nx(); return ('switch',c,items)
        if p=='return':
            self.nx(); e=None if self.pk()==';' else self.expr(); self.ex(';'); return ('ret',e)
        if p in ('break','continue'): self.nx(); self.ex(';'); return (p,)
        if self.istype(): return self.decl()
        return self.exprstmt()
    def exprstmt(self):
        if self.pk()==';': self.nx(); return ('block',[])
        e=self.expr(); self.ex(';'); return ('expr',e)
    def decl(self):
        base=[]
        while self.istype(): base.append(self.nx())
        out=[]
        while True:
            st=0
            while self.pk() in ('*','const'): st+= self.nx()=='*'
            n=self.nx(); arr=0
            while self.pk()=='[':
                self.nx(); arr+=1
                while self.nx()!=']': pass
            init=None
            if self.pk()=='=':
                self.nx()
                if self.pk()=='{':
                    d=0
                    while True:
                        x=self.nx(); d+=(x=='{')-(x=='}')
                        if d==0: break
                else: init=self.assign()
            out.append(('decl',n,st>0,arr,init))
            if self.pk()==',': self.nx()
            else: break
        self.ex(';'); return ('decls',out)
def params(s):
    out=[]
    for a in s.split(','):
        a=a.strip()
        if not a or a=='void' or a=='...': continue
        out.append((re.search(r'(\w+)\s*$',a).group(1),'*' in a))
    return out
# ---------------------------------------------------------------- target statements (as nested tuples)
SK=('Skip',)
def seq(*l):
    out=[]
    for s in l:
        if s is None or s==SK: continue
        if s[0]=='Seq': out+=s[1]
        else: out.append(s)
    # consecutive uses
    r=[]
    for s in out:
        if r and r[-1][0]=='Use' and s[0]=='Use':
            r[-1]=('Use',r[-1][1]+[p for p in s[1] if p not in r[-1][1]])
        elif pure(s) and seen(r,s): pass
        else: r.append(s)
        if s[0] in ('Ret','RetNull','Abort','Break','Continue'): break
    if not r: return SK
    return r[0] if len(r)==1 else ('Seq',r)
def pure(s): return s[0] in ('Use','Skip') or s[0]=='IfNull' and pure(s[2]) and pure(s[3])
def seen(r,s):
    # a use that repeats one with nothing but uses in between
    have=[]
    for t in reversed(r):
        if not pure(t): break
        if t==s: return True
        if t[0]=='Use': have+=t[1]
    return s[0]=='Use' and all(p in have for p in s[1])
def iff(a,b): return a if a==b else ('If',a,b)
def loop(s): return SK if s==SK else (s if only_use(s) and False else ('Loop',s))
def only_use(s): return s[0] in ('Use','Skip')
V=lambda x:('V',x)
class Err(Exception): pass
M4ALLOC={'mzd_copy','mzd_transpose','mzd_mul','mzd_inv_m4ri','mzd_add','mzd_submatrix','mzd_concat','mzd_stack','mzd_addmul','_mzd_mul_even'}
class Tr:
    def __init__(self,fs,alloc,flags,tracked): self.fs=fs;self.alloc=alloc;self.flags=flags;self.tracked=tracked
    def fn(self,d):
        self.d=d;self.n=0
        ps=params(d['params']); self.ptr={p for p,st in ps if st}; self.flag=set(self.flags.get(d['name'],[])+LOCALFLAGS.get(d['name'],[])); self.isptr='*' in d['ret']
        self.pp=[p for p,st in ps if st or p in self.flag]
        body=P(tokens(d['body'])).block()
        return self.pp,self.block(body[1])
    def tmp(self): self.n+=1; return '_%d'%self.n
    def block(self,l): return seq(*[self.st(s) for s in l])
    def use(self,p): return ('Use',[p])
    # evaluates e: (statement, value) ; value: ('p',place,interior?) ('null',) ('data',) ('flag',x)
    def ev(self,e,dst=None):
        k=e[0]
        if k=='num': return SK,('data',)
        if k=='id':
            if e[1] in self.ptr: return SK,('p',V(e[1]),False)
            if e[1] in self.flag: return SK,('flag',e[1])
            if e[1]=='NULL': return SK,('null',)
            return SK,('data',)
        if k in ('fld','idx'):
            s,v=self.ev(e[1]); s2=SK
            if k=='idx': s2,_=self.ev(e[2])
            if v[0]=='p': return seq(s,s2,self.use(v[1])),('p',v[1],True)
            return seq(s,s2),('data',)
        if k=='un':
            s,v=self.ev(e[2])
            if e[1]=='*' and v[0]=='p': return seq(s,self.use(v[1])),('p',v[1],True)
            if e[1] in ('&','++','--') and v[0]=='p': return s,('p',v[1],True)
            if v[0]=='p' and not v[2] and e[1]=='!': raise Err('! on pointer')
            return s,('data',)
        if k=='bin':
            s,v=self.ev(e[2]); s2,v2=self.ev(e[3])
            if e[1] in ('&&','||') and s2!=SK: s2=('If',s2,SK)
            if e[1] in '+-':
                for x in (v,v2):
                    if x[0]=='p': return seq(s,s2),('p',x[1],True)
            return seq(s,s2),('data',)
        if k=='cond':
            t=self.tmp(); 
            s,v=self.ev(e[1]); a,va=self.ev(e[2]); b,vb=self.ev(e[3])
            if 'p' in (va[0],vb[0]) and not (va[0]=='p' and va[2] and vb[0]!='p') and va!=vb and (va[0]=='p' and not va[2]): raise Err('pointer ?:')
            return seq(s,iff(a,b)),('data',) if not(va[0]=='p' and va==vb) else va
        if k=='comma':
            s,_=self.ev(e[1]); s2,v=self.ev(e[2]); return seq(s,s2),v
        if k=='assign':
            if e[2][0]=='id' and e[2][1] in self.ptr and e[1]=='=': return self.assign(e[2][1],e[3]),('p',V(e[2][1]),False)
            if e[2][0]=='id' and e[2][1] in self.flag: return ('SetFlag',e[2][1],'true' if e[3][1]=='1' else 'false'),('data',)
            s2,v2=self.ev(e[3])
            s,v=self.ev(e[2])
            if e[1]=='=' and v2[0]=='p' and not v2[2] and e[2][0]!='id': raise Err('store of a pointer: %r'%(e,))
            if e[1]=='=' and v2[0]=='p' and len(v2)>3: raise Err('store of a new object')
            return seq(s2,s),('data',)
        if k=='call': return self.call(e[1],e[2],dst)
        raise Err('expr %r'%(e,))
    def assign(self,x,e):
        s,v=self.ev(e,V(x))
        if v[0]=='p': return s if v[1]==V(x) else seq(s,('Set_',V(x),v[1]))
        if v[0]=='null': return seq(s,('SetNull',V(x)))
        raise Err('assign %s %r'%(x,e))
    def args(self,a):
        ss=[];vs=[]
        for x in a:
            s,v=self.ev(x); ss.append(s); vs.append(v)
        return seq(*ss),vs
    def call(self,f,a,dst):
        if f in ('assert','printf','fflush','va_start','va_end'): return SK,('data',)
        if f=='m4ri_die': return ('Abort',),('data',)
        s,vs=self.args(a)
        ptrs=[v[1] for v in vs if v[0]=='p']
        up=[]
        for p in ptrs:
            if p not in up: up.append(p)
        u=('Use',up) if up else SK
        D=dst or V(self.tmp())
        if f=='mzd_init': return seq(s,('Malloc',D,'KMzd')),('p',D,False)
        if f=='mzp_init': return seq(s,('Malloc',D,'KMzp')),('p',D,False)
        if f in ('m4ri_mm_malloc','m4ri_mm_calloc','m4ri_mm_malloc_aligned'): return seq(s,('Malloc',D,'KRaw')),('p',D,False)
        if f=='djb_compile': return seq(s,u,('Malloc',D,'KDjb')),('p',D,False)
        if f in ('mzd_init_window','mzd_init_window_const'): return seq(s,('Window',D,'KMzdWin',ptrs[0])),('p',D,False)
        if f=='mzp_init_window': return seq(s,('Window',D,'KMzpWin',ptrs[0])),('p',D,False)
        fr={'mzd_free':'KMzd','mzd_free_window':'KMzd','mzp_free':'KMzp','mzp_free_window':'KMzpWin','m4ri_mm_free':'KRaw','free':'KRaw','djb_free':'KDjb'}
        if f in fr:
            if vs[0][0]!='p' or vs[0][2]: raise Err('free of interior pointer %s %r'%(f,a))
            return seq(s,('Free',vs[0][1],fr[f])),('data',)
        if f in self.tracked:
            g=self.fs[f]; ps=params(g['params']); fl=self.flags.get(f,[])
            if len(ps)!=len(vs): raise Err('arity '+f)
            out=[]
            for (p,st),v,x in zip(ps,vs,a):
                if st:
                    if v[0]=='p': out.append(('AP',v[1]))
                    elif v[0]=='null': out.append(('ANULL',))
                    else: raise Err('argument %s of %s: %r'%(p,f,x))
                elif p in fl:
                    if v[0]=='flag': out.append(('AP',V(v[1])))
                    elif x[0]=='num' and x[1] in ('0','1'): out.append(('AFLAG','true' if x[1]=='1' else 'false'))
                    else: raise Err('flag')
            if '*' in g['ret']:
                return seq(s,('Call',D if dst or not getattr(self,'drop',False) else None,f,out)),('p',D,False)
            return seq(s,('Call',None,f,out)),('data',)
        if f in self.alloc: raise Err('call of untracked allocating function '+f)
        if f in ('_mzd_ptr_add_to_all','_mzd_ptr_add_modred') and vs[0][0]=='p':
            rest=[v[1] for v in vs[1:] if v[0]=='p']; r=[]
            for p in rest:
                if p not in r: r.append(p)
            return seq(s,('Use',r),('IfNull',vs[0][1],SK,('Use',[vs[0][1]]))),('data',)
        if vs and vs[0][0]=='null' and f not in self.fs:
            if f not in M4ALLOC: raise Err('NULL destination: '+f)
            return seq(s,u,('Malloc',D,'KMzd')),('p',D,False)
        ret=next((('p',v[1],True) for v in vs if v[0]=='p'),('data',))
        if f in self.fs and '*' not in self.fs[f]['ret']: ret=('data',)
        return seq(s,u),ret
    # conditions
    def cond(self,e,a,b):
        k=e[0]
        if k=='bin' and e[1]=='&&': return self.cond(e[2],self.cond(e[3],a,b),b)
        if k=='bin' and e[1]=='||': return self.cond(e[2],a,self.cond(e[3],a,b))
        if k=='un' and e[1]=='!': return self.cond(e[2],b,a)
        if k=='bin' and e[1] in ('==','!='):
            if e[1]=='!=': a,b=b,a
            s,v=self.ev(e[2]); s2,v2=self.ev(e[3])
            if v2[0]=='null' and v[0]=='p' and not v[2]: return seq(s,('IfNull',v[1],a,b))
            if v[0]=='p' and v2[0]=='p' and not v[2] and not v2[2]: return seq(s,s2,('IfSame',v[1],v2[1],a,b))
            return seq(s,s2,iff(a,b))
        s,v=self.ev(e)
        if v[0]=='p' and not v[2]: return seq(s,('IfNull',v[1],b,a))
        if v[0]=='flag': return seq(s,('IfFlag',v[1],a,b))
        return seq(s,iff(a,b))
    def st(self,x):
        k=x[0]
        if k=='block': return self.block(x[1])
        if k=='expr':
            if x[1][0]=='call':
                self.drop=True
                # only the outermost call drops its result
                f,a=x[1][1],x[1][2]
                self.drop=False
                s,v=self.outer(f,a); return s
            return self.ev(x[1])[0]
        if k=='decls':
            out=[]
            for _,n,st,arr,init in x[1]:
                if arr and st: raise Err('array of pointers '+n)
                if st: self.ptr.add(n)
                else: self.ptr.discard(n)
                if n in self.flag: out.append(('SetFlag',n,'true' if init[1]=='1' else 'false')); continue
                if init is not None: out.append(self.assign(n,init) if st else self.ev(init)[0])
            return seq(*out)
        if k=='if': return self.cond(x[1],self.st(x[2]),self.st(x[3]))
        if k=='for':
            i=self.st(x[1]); c=SK if x[2] is None else self.ev(x[2])[0]; n=SK if x[3] is None else self.ev(x[3])[0]
            if n!=SK and not only_use(n): raise Err('loop increment')
            b=self.st(x[4])
            r=seq(c,b,n)
            return seq(i,c,('Loop',r) if r!=SK else SK)
        if k=='switch':
            s,_=self.ev(x[1]); items=x[2]; alts=[]; dflt=False
            for i,it in enumerate(items):
                if it in ('case','default'):
                    dflt|=it=='default'
                    body=[]
                    for y in items[i:]:
                        if isinstance(y,str): continue
                        if y==('break',): break
                        body.append(y)
                    alts.append(self.block(body))
            if not dflt: alts.append(SK)
            ded=[]
            for y in alts:
                if y not in ded: ded.append(y)
            r=ded[-1]
            for y in reversed(ded[:-1]): r=('If',y,r)
            return seq(s,r)
        if k=='ret':
            if x[1] is None: return ('Ret',None)
            if not self.isptr: return seq(self.ev(x[1])[0],('Ret',None))
            s,v=self.ev(x[1])
            if v[0]=='p': return seq(s,('Ret',v[1]))
            if v[0]=='null': return seq(s,('RetNull',))
            raise Err('return')
        if k=='break': return ('Break',)
        if k=='continue': return ('Continue',)
        raise Err(k)
    def outer(self,f,a):
        s,v=self.call(f,a,None)
        # result dropped
        if s[0]=='Call' and s[3-1]==f: return ('Call',None,s[2],s[3]),v
        if s[0]=='Seq' and s[1][-1][0]=='Call' and s[1][-1][2]==f: return ('Seq',s[1][:-1]+[('Call',None)+s[1][-1][2:]]),v
        return s,v
# ---------------------------------------------------------------- printing
def pl(p): return '(%s "%s")'%(p[0],p[1])
def ar(a): return 'AP '+pl(a[1]) if a[0]=='AP' else ('ANULL' if a[0]=='ANULL' else 'AFLAG %s'%a[1])
def show(s,ind):
    k=s[0]; sp=' '*ind
    if k in ('Skip','Break','Continue','RetNull','Abort'): return k
    if k=='Seq': return (' ;;\n'+sp).join(show1(x,ind) for x in s[1])
    if k=='Malloc': return 'Malloc %s %s'%(pl(s[1]),s[2])
    if k=='Window': return 'Window %s %s %s'%(pl(s[1]),s[2],pl(s[3]))
    if k=='Free': return 'Free %s %s'%(pl(s[1]),s[2])
    if k=='Use': return 'Use [%s]'%'; '.join('%s "%s"'%p for p in s[1])
    if k=='Set_': return 'Set_ %s %s'%(pl(s[1]),pl(s[2]))
    if k=='SetNull': return 'SetNull %s'%pl(s[1])
    if k=='SetFlag': return 'SetFlag "%s" %s'%(s[1],s[2])
    if k=='If': return 'If (%s)\n%s   (%s)'%(show(s[1],ind+4),sp,show(s[2],ind+4))
    if k=='IfNull': return 'IfNull %s (%s)\n%s   (%s)'%(pl(s[1]),show(s[2],ind+4),sp,show(s[3],ind+4))
    if k=='IfFlag': return 'IfFlag "%s" (%s)\n%s   (%s)'%(s[1],show(s[2],ind+4),sp,show(s[3],ind+4))
    if k=='IfSame': return 'IfSame %s %s (%s)\n%s   (%s)'%(pl(s[1]),pl(s[2]),show(s[3],ind+4),sp,show(s[4],ind+4))
    if k=='Loop': return 'Loop (%s)'%show(s[1],ind+2)
    if k=='Call': return 'Call %s "%s" [%s]'%('(Some %s)'%pl(s[1]) if s[1] else 'None',s[2],'; '.join(ar(a) for a in s[3]))
    if k=='Ret': return 'Ret %s'%('(Some %s)'%pl(s[1]) if s[1] else 'None')
    raise Err('show '+k)
def show1(s,ind):
    return show(s,ind)
# ---------------------------------------------------------------- functions transcribed by hand
# name: (parameters, body, remark); file and lines are looked up
HAND={
'gf2e_init':([], '''Malloc (V "ff") KRaw ;;
  Use [V "ff"] ;;
  Malloc (V "red") KRaw ;;
  Loop (Use [V "ff"; V "red"]) ;;
  Malloc (V "pow_gen") KRaw ;;
  Loop (Use [V "ff"; V "pow_gen"]) ;;
  If (Malloc (V "_mul") KRaw ;;
      For "order" (Malloc (El "_mul") KRaw ;; Loop (Use [El "_mul"; V "red"])) ;;
      Pack "ff" KField [FV "red"; FV "pow_gen"; FV "_mul"; FA "_mul" "order"])
     (SetNull (V "_mul") ;;
      Pack "ff" KField [FV "red"; FV "pow_gen"; FV "_mul"; FE]) ;;
  Ret (Some (V "ff"))''','the members of ff are variables until the structure is complete; the entry 0 of _mul is filled in the loop; ff comes from calloc, so _mul is NULL if it is not set'),
'gf2e_free':(['ff'],'''Unpack "ff" [FV "red"; FV "pow_gen"; FV "_mul"; FA "_mul" "order"] ;;
  IfNull (V "_mul") Skip
    (For "order" (Free (El "_mul") KRaw) ;;
     Free (V "_mul") KRaw) ;;
  Free (V "pow_gen") KRaw ;;
  Free (V "red") KRaw ;;
  Free (V "ff") KRaw''',''),
'mzed_init':(['k'],'''Malloc (V "A") KRaw ;;
  Use [V "k"; V "A"] ;;
  Malloc (V "A.x") KMzd ;;
  Pack "A" KMzed [FV "A.x"] ;;
  Ret (Some (V "A"))''',''),
'mzed_free':(['A'],'''Unpack "A" [FV "A.x"] ;;
  Free (V "A.x") KMzd ;;
  Free (V "A") KRaw''',''),
'mzed_init_window':(['A'],'''Malloc (V "B") KRaw ;;
  Use [V "A"; V "B"] ;;
  Window (V "B.x") KMzdWin (V "A") ;;
  Pack "B" KMzedWin [FV "B.x"] ;;
  Ret (Some (V "B"))''','a window into A->x is a window into A'),
'mzed_free_window':(['A'],'''Unpack "A" [FV "A.x"] ;;
  Free (V "A.x") KMzd ;;
  Free (V "A") KRaw''',''),
'mzd_slice_init':(['ff'],'''Malloc (V "A") KRaw ;;
  Use [V "ff"; V "A"] ;;
  For "depth" (Malloc (El "A.x") KMzd) ;;
  Pack "A" KSlice [FA "A.x" "depth"] ;;
  Ret (Some (V "A"))''',''),
'mzd_slice_free':(['A'],'''Unpack "A" [FA "A.x" "depth"] ;;
  For "depth" (Free (El "A.x") KMzd) ;;
  Free (V "A") KRaw''','_mm_free and free count as m4ri_mm_free'),
'mzd_slice_init_window':(['A'],'''Malloc (V "B") KRaw ;;
  Use [V "A"; V "B"] ;;
  For "depth" (Window (El "B.x") KMzdWin (V "A")) ;;
  Pack "B" KSliceWin [FA "B.x" "depth"] ;;
  Ret (Some (V "B"))''','a window into A->x[i] is a window into A'),
'mzd_slice_free_window':(['A'],'''Unpack "A" [FA "A.x" "depth"] ;;
  For "depth" (Free (El "A.x") KMzd) ;;
  Free (V "A") KRaw''',''),
'mzd_poly_init':([],'''Malloc (V "A") KRaw ;;
  Use [V "A"] ;;
  Malloc (V "A.x") KRaw ;;
  For "depth" (Malloc (El "A.x") KMzd) ;;
  Pack "A" KPoly [FV "A.x"; FA "A.x" "depth"] ;;
  Ret (Some (V "A"))''',''),
'mzd_poly_free':(['A'],'''Unpack "A" [FV "A.x"; FA "A.x" "depth"] ;;
  For "depth" (Free (El "A.x") KMzd) ;;
  Free (V "A.x") KRaw ;;
  Free (V "A") KRaw''',''),
'njt_mzed_init':(['ff'],'''Malloc (V "T") KRaw ;;
  Use [V "ff"; V "T"] ;;
  Malloc (V "T.L") KRaw ;;
  Call (Some (V "T.T")) "mzed_init" [AP (V "ff")] ;;
  Call (Some (V "T.M")) "mzed_init" [AP (V "ff")] ;;
  Pack "T" KNjt [FV "T.L"; FV "T.T"; FV "T.M"] ;;
  Ret (Some (V "T"))''',''),
'njt_mzed_free':(['T'],'''Unpack "T" [FV "T.L"; FV "T.T"; FV "T.M"] ;;
  Call None "mzed_free" [AP (V "T.M")] ;;
  Call None "mzed_free" [AP (V "T.T")] ;;
  Free (V "T.L") KRaw ;;
  Free (V "T") KRaw''',''),
'_mzd_ptr_apply_blm_djb':(['X','A','B','f'],'''Use [V "f"] ;;
  Malloc (V "t0") KRaw ;;
  Malloc (V "t1") KRaw ;;
  Malloc (V "t2") KRaw ;;
  For "m" (Use [V "A"; V "B"; V "t1"; V "t2"] ;; Malloc (El "t1") KMzd ;; Malloc (El "t2") KMzd) ;;
  Call None "djb_apply_mzd_ptr" [AP (V "f"); AP (V "t1"); AP (V "A")] ;;
  For "m" (Use [El "t1"]) ;;
  Call None "djb_apply_mzd_ptr" [AP (V "f"); AP (V "t2"); AP (V "B")] ;;
  For "m" (Use [El "t2"]) ;;
  For "m" (Use [V "A"; V "B"; V "t0"; V "t1"; V "t2"] ;;
           Malloc (El "t0") KMzd ;;
           Use [El "t0"; El "t1"; El "t2"] ;;
           Free (El "t1") KMzd ;;
           Free (El "t2") KMzd) ;;
  Call None "djb_apply_mzd_ptr" [AP (V "f"); AP (V "X"); AP (V "t0")] ;;
  For "m" (Use [El "t0"]) ;;
  For "m" (Use [V "t0"] ;; Free (El "t0") KMzd) ;;
  Free (V "t0") KRaw ;;
  Free (V "t1") KRaw ;;
  Free (V "t2") KRaw''','the use of the entries of an array by djb_apply_mzd_ptr follows the call'),
'_blm_djb_compile':(['f'],'''Unpack "f" [FV "f.F"; FV "f.G"; FV "f.H"; FV "f.f"; FV "f.g"; FV "f.h"] ;;
  Use [V "f.F"] ;; Malloc (V "F") KMzd ;;
  Use [V "F"] ;; Malloc (V "f.f") KDjb ;;
  Free (V "F") KMzd ;;
  Use [V "f.F"; V "f.G"] ;;
  If (Set_ (V "f.g") (V "f.f"))
     (Use [V "f.G"] ;; Malloc (V "G") KMzd ;;
      Use [V "G"] ;; Malloc (V "f.g") KDjb ;;
      Free (V "G") KMzd) ;;
  Use [V "f.H"] ;; Malloc (V "H") KMzd ;;
  Use [V "H"] ;; Malloc (V "f.h") KDjb ;;
  Free (V "H") KMzd ;;
  Pack "f" KBlmC [FV "f.F"; FV "f.G"; FV "f.H"; FV "f.f"; FV "f.g"; FV "f.h"] ;;
  Ret (Some (V "f"))''','the members of f are variables while the function runs'),
'_blm_finish_polymult':(['ff','f'],'''Unpack "f" [FV "f.F"; FV "f.G"; FE; FV "f.f"; FV "f.g"; FE] ;;
  Use [V "f"; V "f.F"; V "f.G"] ;;
  Malloc (V "H") KMzd ;;
  Malloc (V "F_T") KMzd ;;
  Malloc (V "G_T") KMzd ;;
  Malloc (V "C") KMzd ;;
  Malloc (V "pivots") KMzd ;;
  Malloc (V "P") KMzp ;;
  Malloc (V "Q") KMzp ;;
  Loop (Loop (Use [V "C"; V "F_T"; V "G_T"]) ;;
        Use [V "pivots"; V "f.F"; V "f.G"; V "C"] ;;
        If (Use [V "C"] ;; Malloc (V "D") KMzd ;;
            Use [V "D"; V "P"; V "Q"] ;;
            Use [V "pivots"; V "P"; V "C"] ;;
            Free (V "D") KMzd) Skip) ;;
  Free (V "P") KMzp ;;
  Free (V "Q") KMzp ;;
  Loop (Use [V "pivots"] ;; Loop (Use [V "C"; V "F_T"; V "G_T"])) ;;
  Free (V "F_T") KMzd ;;
  Free (V "G_T") KMzd ;;
  Use [V "C"] ;; Malloc (V "D") KMzd ;;
  Free (V "C") KMzd ;;
  Use [V "D"] ;; Malloc (V "DT") KMzd ;;
  Free (V "D") KMzd ;;
  Malloc (V "a") KMzd ;;
  Use [V "H"] ;; Malloc (V "b") KMzd ;;
  Loop (Use [V "H"; V "a"] ;;
        Loop (Use [V "pivots"; V "a"]) ;;
        Use [V "b"; V "a"; V "DT"] ;;
        Loop (Use [V "H"; V "b"])) ;;
  Free (V "a") KMzd ;;
  Free (V "b") KMzd ;;
  Free (V "pivots") KMzd ;;
  IfNull (V "ff") (Set_ (V "f.H") (V "H"))
    (Use [V "H"; V "ff"] ;;
     Call (Some (V "N")) "_crt_modred_mat" [] ;;
     Use [V "N"; V "H"] ;; Malloc (V "f.H") KMzd ;;
     Free (V "N") KMzd ;;
     Free (V "H") KMzd) ;;
  Pack "f" KBlm1 [FV "f.F"; FV "f.G"; FV "f.H"; FV "f.f"; FV "f.g"; FE] ;;
  Ret (Some (V "f"))''','the members of f are variables while the function runs'),
'blm_init_crt':(['ff','p','djb'],'''Malloc (V "f") KRaw ;;
  Malloc (V "p_it") KRaw ;;
  Use [V "p"] ;;
  Malloc (V "f.F") KMzd ;;
  SetNull (V "f.f") ;;
  Malloc (V "f.G") KMzd ;;
  SetNull (V "f.g") ;;
  Use [V "p"] ;;
  If (Use [V "p"] ;;
      Call (Some (V "N")) "_small_multiplication_map" [] ;;
      Call (Some (V "M")) "_crt_modred_mat" [] ;;
      Window (V "T") KMzdWin (V "f.F") ;;
      Use [V "T"; V "N"; V "M"] ;;
      Free (V "T") KMzd ;;
      Free (V "M") KMzd ;;
      Call (Some (V "M")) "_crt_modred_mat" [] ;;
      Window (V "T") KMzdWin (V "f.G") ;;
      Use [V "T"; V "N"; V "M"] ;;
      Free (V "T") KMzd ;;
      Free (V "M") KMzd ;;
      Free (V "N") KMzd) Skip ;;
  Loop (Use [V "p"] ;;
        If Continue Skip ;;
        Call (Some (V "N")) "_small_multiplication_map" [] ;;
        Loop (Use [V "p"; V "p_it"] ;;
              If Skip Abort ;;
              Call (Some (V "M")) "_crt_modred_mat" [] ;;
              Window (V "T") KMzdWin (V "f.F") ;;
              Use [V "T"; V "N"; V "M"] ;;
              Free (V "T") KMzd ;;
              Free (V "M") KMzd ;;
              Call (Some (V "M")) "_crt_modred_mat" [] ;;
              Window (V "T") KMzdWin (V "f.G") ;;
              Use [V "T"; V "N"; V "M"] ;;
              Free (V "T") KMzd ;;
              Free (V "M") KMzd) ;;
        Free (V "N") KMzd) ;;
  Free (V "p_it") KRaw ;;
  Pack "f" KBlm0 [FV "f.F"; FV "f.G"; FE; FV "f.f"; FV "f.g"; FE] ;;
  Call None "_blm_finish_polymult" [AP (V "ff"); AP (V "f")] ;;
  Unpack "f" [FV "f.F"; FV "f.G"; FV "f.H"; FV "f.f"; FV "f.g"; FE] ;;
  SetNull (V "f.h") ;;
  Pack "f" KBlmM [FV "f.F"; FV "f.G"; FV "f.H"; FV "f.f"; FV "f.g"; FV "f.h"] ;;
  IfFlag "djb" (Call None "_blm_djb_compile" [AP (V "f")]) Skip ;;
  Ret (Some (V "f"))''','the members of f are variables until it is passed on'),
'blm_free':(['f'],'''Unpack "f" [FV "f.F"; FV "f.G"; FV "f.H"; FV "f.f"; FV "f.g"; FV "f.h"] ;;
  Free (V "f.F") KMzd ;;
  Free (V "f.G") KMzd ;;
  Free (V "f.H") KMzd ;;
  IfSame (V "f.f") (V "f.g") Skip (Free (V "f.g") KDjb) ;;
  Free (V "f.f") KDjb ;;
  Free (V "f.h") KDjb ;;
  Free (V "f") KRaw''',''),
'_mzd_poly_addmul_ext1':(['C','A','B'],'''Use [V "A"; V "B"] ;;
  Call (Some (V "ff")) "gf2e_init" [] ;;
  Call (Some (V "a")) "mzd_slice_init" [AP (V "ff")] ;;
  Call (Some (V "b")) "mzd_slice_init" [AP (V "ff")] ;;
  Malloc (V "c") KRaw ;;
  Call (Some (V "Phi")) "mzed_init" [AP (V "ff")] ;;
  Call (Some (V "Rho")) "mzed_init" [AP (V "ff")] ;;
  Use [V "Phi"] ;;
  Call (Some (V "c0")) "mzd_slice_init" [AP (V "ff")] ;;
  Use [V "c0"; V "A"; V "B"] ;;
  Loop (Use [V "Phi"]) ;;
  Loop (Use [V "a"; V "A"]) ;;
  Loop (Use [V "b"; V "B"]) ;;
  Call (Some (V "c1")) "mzd_slice_init" [AP (V "ff")] ;;
  Use [V "c1"; V "a"; V "b"] ;;
  For "d-2" (Use [V "a"; V "b"] ;;
             Loop (Use [V "Phi"; V "ff"] ;; If (Use [V "a"; V "A"]) Skip ;; If (Use [V "b"; V "B"]) Skip) ;;
             Call (Some (El "c")) "mzd_slice_mul" [ANULL; AP (V "a"); AP (V "b")]) ;;
  Call None "mzd_slice_free" [AP (V "a")] ;;
  Call None "mzd_slice_free" [AP (V "b")] ;;
  Call None "mzed_invert_newton_john" [AP (V "Rho"); AP (V "Phi")] ;;
  Call (Some (V "tmp")) "mzd_slice_init" [AP (V "ff")] ;;
  Loop (Use [V "Rho"; V "c"] ;;
        Call None "mzd_slice_mul_scalar" [AP (V "tmp"); AP (V "c0")] ;;
        Use [V "C"; V "tmp"] ;;
        Call None "mzd_slice_mul_scalar" [AP (V "tmp"); AP (V "c1")] ;;
        Use [V "C"; V "tmp"] ;;
        For "d-2" (Call None "mzd_slice_mul_scalar" [AP (V "tmp"); AP (El "c")] ;;
                   Use [V "C"; V "tmp"])) ;;
  Call None "mzd_slice_free" [AP (V "tmp")] ;;
  Call None "mzd_slice_free" [AP (V "c0")] ;;
  Call None "mzd_slice_free" [AP (V "c1")] ;;
  For "d-2" (Call None "mzd_slice_free" [AP (El "c")]) ;;
  Free (V "c") KRaw ;;
  Call None "mzed_free" [AP (V "Phi")] ;;
  Call None "mzed_free" [AP (V "Rho")] ;;
  Call None "gf2e_free" [AP (V "ff")] ;;
  Ret (Some (V "C"))''','c[0] and c[1] are the variables c0 and c1, c is the array of the others (so d is at least 2)'),
}
SKIP={'_mzd_slice_adapt_depth','_mzd_poly_adapt_depth'}
LOCALFLAGS={'_mzd_slice_mul_blm':['free_f']}
FLAGS={'blm_init_crt':['djb']}
def main():
    fs={}
    for f in FILES:
        for d in funcs(f): fs.setdefault(d['name'],d)
    def inst(pre):
        def sub(s):
            s=re.sub(r'\b_matrix_',lambda m:'_'+pre,s); s=re.sub(r'\bmatrix_t\b',pre+'t',s); return re.sub(r'\bmatrix_',pre,s)
        return sub
    for pre in ('mzed_','mzd_slice_'):
        for d in funcs('trsm.inl',inst(pre)): fs[d['name']]=d
    prim={'mzd_init','mzd_init_window','mzd_free','mzd_free_window','mzp_init','mzp_init_window','mzp_free','mzp_free_window','m4ri_mm_malloc','m4ri_mm_calloc','m4ri_mm_free','djb_compile','djb_free','calloc','free','mzd_init_window_const'}
    calls={n:set(re.findall(r'([A-Za-z_]\w*)\s*\(',d['body'])) for n,d in fs.items()}
    alloc={n for n in fs if calls[n]&prim or re.search(r'\(\s*NULL\s*,',d_body(fs[n])) and n not in('_mzd_ptr_add',)}
    ch=True
    while ch:
        ch=False
        for n in fs:
            if n not in alloc and calls[n]&alloc: alloc.add(n);ch=True
    tracked=alloc-SKIP
    tr=Tr(fs,alloc,FLAGS,tracked); defs=[];errs=[]
    # flag literals
    order=sorted(tracked,key=lambda n:((FILES+['trsm.inl']).index(fs[n]['file']),fs[n]['line'],n))
    for n in order:
        d=fs[n]
        if n in HAND:
            ps,body,rem=HAND[n]; defs.append((n,d,ps,body,rem)); continue
        try: ps,s=tr.fn(d)
        except Err as e: errs.append((n,str(e))); continue
        defs.append((n,d,ps,show(s,2),''))
    for e in errs: print('ERR',e,file=sys.stderr)
    out=[HEAD]
    for n,d,ps,body,rem in defs:
        where='%s:%d-%d'%(d['file'],d['line'],d['end'])
        how='by hand' if n in HAND else 'by gen_mem.py'
        out.append('(** %s, %s, transcribed %s%s *)\nDefinition p_%s := Fn [%s] (\n  %s).\n'%(n,where,how,(': '+rem) if rem else '',n,'; '.join('"%s"'%p for p in ps),body))
    out.append('Definition library : list (string * fn) :=\n  [%s].'%(';\n   '.join('("%s", p_%s)'%(n,n) for n,*_ in defs)))
    out.append('Fixpoint lookup {A} (f : string) (l : list (string * A)) : option A := match l with [] => None | (g, b) :: l => if String.eqb f g then Some b else lookup f l end.\nDefinition m4rie (f : string) : option fn := lookup f library.')
    print('\n'.join(out))
def d_body(d): return d['body']
HEAD='''(** The functions of the library that allocate or release memory, in the language of MemLang.v.  Generated by gen/gen_mem.py from the
    sources (functions marked "by hand" are transcribed by hand, in that script).

    Conventions.  Only pointer variables occur.  A read or write of a member (A->x, A->x[i], A[i]) is a [Use] of A, and the pointer read
    from it counts as a pointer into A, that is as A itself; so does A->finite_field: the lifetime of the field of a matrix, which the
    matrix does not own, is not tracked.  A call of a function that does not allocate is a [Use] of its pointer arguments, and if it
    returns a pointer, that is its first argument.  The functions of M4RI are such functions, except: mzd_init, mzp_init, mzd_init_window,
    mzp_init_window, djb_compile, m4ri_mm_malloc, m4ri_mm_calloc, calloc and functions with the literal NULL as destination allocate;
    mzd_free, mzd_free_window, mzp_free, mzp_free_window, djb_free, m4ri_mm_free, free release.  m4ri_die ends the program.  assert is
    ignored.  A condition on data is [If] (either branch); a loop is [Loop] (any number of rounds; the reads of its condition come once
    before the loop and in each round).  A use that repeats an earlier one, with
    nothing but uses in between, is left out.  switch is a choice between its cases; a case that falls through contains the statements of the
    next ones.  Definitions only. *)
From Coq Require Import String List.
From Verif Require Import MemLang.
Import ListNotations.
Local Open Scope string_scope.
Infix ";;" := Seq (at level 60, right associativity).
'''
if __name__=='__main__': main()
