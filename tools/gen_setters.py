#!/usr/bin/env python3
"""Expands the @SETTERS@ marker of a model file into one field-update function per record field."""
import re,sys
f=sys.argv[1]; rec=sys.argv[2]; pre=sys.argv[3]
s=open(f).read()
m=re.search(r'Record %s \{A : Arith\} := mk%s \{(.*?)\}\.\n'%(rec,rec),s,re.S)
body=re.sub(r'\(\*.*?\*\)','',m.group(1),flags=re.S)
fields=[(a.strip(),b.strip()) for a,b in (x.split(':',1) for x in body.split(';') if x.strip())]
out=['(* Field updates self.f = v, one per field (no source counterpart beyond the struct itself). *)',
     'Section Setters.','Context {A : Arith}.']
for n,t in fields:
    args=' '.join('v' if k==n else '(%s s)'%k for k,_ in fields)
    out.append('Definition set_%s (v : %s) (s : %s) : %s :=\n  mk%s %s.'%(n,t,rec,rec,rec,args))
out.append('End Setters.')
s=s.replace('@SETTERS@','\n'.join(out))
open(f,'w').write(s); print(len(fields))
