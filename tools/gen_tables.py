#!/usr/bin/env python3
"""Reads /repo/src/{detail,gerg2008}.rs as text and writes the constant tables and the
constant-assignment lists of the two setup() functions as Coq modules.  The generated files are
committed; this script is only their provenance."""
import re, os
from decimal import Decimal
OUT=os.path.join(os.path.dirname(os.path.abspath(__file__)),'..','rocq','theories')
def lit(s):
    s=s.strip().replace('_','')
    neg=s.startswith('-'); s=s.lstrip('-')
    m=re.fullmatch(r'(\d+)(?:\.(\d*))?(?:[eE]([+-]?\d+))?',s); assert m,s
    ip,fp,ex=m.group(1),m.group(2) or '',int(m.group(3) or 0)
    fp=fp.rstrip('0'); mant=int(ip+fp); e=ex-len(fp)
    if mant==0: e=0
    assert Decimal(s)==Decimal(mant)*Decimal(10)**e
    mant=-mant if neg else mant
    f=lambda z:'(%d)'%z if z<0 else '%d'%z
    return 'L %s %s'%(f(mant),f(e))
def lines_of(src,a,b): return (src.count('\n',0,a)+1, src.count('\n',0,b)+1)
def parse_const(src,name):
    m=re.search(r'const %s: (\[[^=]*\]) = (\[.*?\n?\]);'%name,src,re.S)
    body=re.sub(r'//.*','',m.group(2))
    toks=re.findall(r'\[|\]|[^\s,\[\]]+',body)
    st=[]; cur=None
    for t in toks:
        if t=='[': st.append([]) 
        elif t==']':
            x=st.pop()
            if st: st[-1].append(x)
            else: cur=x
        else: st[-1].append(t)
    return cur,lines_of(src,m.start(),m.end()),m.group(1)
def emit_list(xs,f,ind='  '):
    out=[];line=ind+'['
    for k,x in enumerate(xs):
        t=f(x)+(']' if k==len(xs)-1 else '; ')
        if len(line)+len(t)>100: out.append(line.rstrip()); line=ind+' '
        line+=t
    out.append(line); return '\n'.join(out)
def table(src,file,name,kind,coqname):
    v,(a,b),ty=parse_const(src,name)
    nested=isinstance(v[0],list)
    f=lit if kind=='f' else (lambda s:str(int(s)))
    base={'f':'lit','n':'nat','z':'nat'}[kind]
    ty='list (list %s)'%base if nested else 'list %s'%base
    s='(* %s:%d-%d  const %s *)\nDefinition %s : %s :=\n'%(file,a,b,name,coqname,ty)
    if nested:
        s+='  [' + ';\n'.join(emit_list(r,f,'   ').lstrip() if k==0 else emit_list(r,f,'   ') for k,r in enumerate(v))+'].\n'
    else: s+=emit_list(v,f)+'.\n'
    return s+'\n'
HDR='''(* GENERATED by tools/gen_tables.py from %s -- constant data only.
   A decimal literal such as 0.153_832_6 is written L 1538326 (-7), i.e. m * 10^e. *)
From Coq Require Import ZArith List.
From Verif Require Import FArith.
Import ListNotations.
Local Open Scope Z_scope.

'''
d=open('/repo/src/detail.rs').read()
o=HDR%'/repo/src/detail.rs'
for n,k in [('MMI','f'),('AN','f'),('BN','n'),('KN','n'),('UN','f'),('FN','z'),('GN','z'),('QN','z'),('SN','z'),('WN','z'),
  ('EI','f'),('KI','f'),('GI','f'),('QI','f'),('FI','f'),('SI','f'),('WI','f'),('EIJ','f'),('UIJ','f'),('KIJ','f'),('GIJ','f'),('TH0I','f')]:
    t=table(d,'src/detail.rs',n,k,'D_'+n)
    if k!='f': t=t.replace(' :=\n',' := Eval compute in map Z.to_nat\n' if False else ' :=\n')
    o+=t
def assigns(src,file,arr,a,b,coqname,kind,pat=r'self\.%s\[(\d+)\]\[(\d+)\] = ([-\d._eE+]+);'):
    """the assignments arr[i][j] = literal between source lines a and b, in source order"""
    L=src.split('\n'); out=[]; ls=[]
    for k in range(a-1,b):
        m=re.search(pat%arr,L[k])
        if m: out.append(m.groups()); ls.append(k+1)
    f=lit if kind=='f' else (lambda s:str(int(s)))
    g=lambda t:'((%s, %s)%%nat, %s)'%(t[0],t[1],f(t[2])) if kind=='f' else '(%s, %s, %s)'%(t[0],t[1],f(t[2]))
    ty='list ((nat * nat) * lit)' if kind=='f' else 'list (nat * nat * nat)'
    sc='' if kind=='f' else '%nat'
    return '(* %s:%d-%d  the %d assignments %s[i][j] = c, in source order *)\nDefinition %s : %s :=\n%s%s.\n\n'%(file,ls[0],ls[-1],len(out),arr,coqname,ty,emit_list(out,g),sc), len(out)
t,n=assigns(d,'src/detail.rs','n0i',780,926,'D_setup_n0i','f'); assert n==147
o+=t
# nat tables: list literals must be read in nat scope
o=re.sub(r'(Definition D_(?:BN|KN|FN|GN|QN|SN|WN) : list nat :=\n.*?)\.\n',lambda m:m.group(1)+'%nat.\n',o,flags=re.S)
open(OUT+'/DetailTables.v','w').write(o)
g=open('/repo/src/gerg2008.rs').read()
o=HDR%'/repo/src/gerg2008.rs'
for n,k in [('MMI_GERG','f'),('KPOL','n'),('KEXP','n'),('KPOLIJ','n'),('KEXPIJ','n'),('DC','f'),('TC','f'),('NOIK','f'),('FIJ','f'),('MNUMB','n'),('TH0I','f'),('GVIJ','f'),('BTIJ','f'),('GTIJ','f')]:
    t=table(g,'src/gerg2008.rs',n,k,'G_'+n)
    if k=='n': t=t.rstrip()[:-1]+'%nat.\n\n'
    o+=t
def row_assigns(arr,a,b,coqname,kind):
    L=g.split('\n'); out=[]
    for k in range(a-1,b):
        m=re.search(r'self\.%s\[i\]\[(\d+)\] = ([-\d._eE+]+);'%arr,L[k])
        if m: out.append(m.groups())
    f=lit if kind=='f' else (lambda s:str(int(s)))
    gg=lambda t:'(%s%%nat, %s)'%(t[0],f(t[1])) if kind=='f' else '(%s, %s)'%(t[0],f(t[1]))
    ty='list (nat * lit)' if kind=='f' else 'list (nat * nat)'
    return '(* src/gerg2008.rs:%d-%d  the %d assignments %s[i][k] = c of this loop body, in source order *)\nDefinition %s : %s :=\n%s%s.\n\n'%(a,b,len(out),arr,coqname,ty,emit_list(out,gg),'' if kind=='f' else '%nat')
for arr,k in (('coik','n'),('doik','n'),('toik','f')):
    o+=row_assigns(arr,2441,2480,'G_setup_%s_all'%arr,k)
    o+=row_assigns(arr,2482,2557,'G_setup_%s_long'%arr,k)
    o+=assigns(g,'src/gerg2008.rs',arr,2558,2754,'G_setup_%s'%arr,k)[0]
cnt={}
for arr,k in (('dijk','n'),('tijk','f'),('cijk','f'),('eijk','f'),('gijk','f'),('nijk','f')):
    t,c=assigns(g,'src/gerg2008.rs',arr,2755,3191,'G_setup_%s'%arr,k); o+=t; cnt[arr]=c
t,c=assigns(g,'src/gerg2008.rs','bijk',2755,3191,'G_setup_bijk','f',pat=r'^\s+%s\[(\d+)\]\[(\d+)\] = ([-\d._eE+]+);'); o+=t; cnt['bijk']=c
for arr,a,b in (('n0i',3192,3339),('bvij',3340,4183),('gvij',3340,4183),('btij',3340,4183),('gtij',3340,4183)):
    t,c=assigns(g,'src/gerg2008.rs',arr,a,b,'G_setup_%s'%arr,'f'); o+=t; cnt[arr]=c
print(cnt)
open(OUT+'/GergTables.v','w').write(o)
# every assignment line of the gerg setup must have been captured
tot=sum(1 for l in g.split('\n')[2440:4183] if re.search(r'\] = [-\d._eE+]+;',l))
print('assignment lines',tot,'captured', sum(cnt.values())+sum(len(re.findall(r'\(\d+(?:%nat)?, ',x)) for x in []))
