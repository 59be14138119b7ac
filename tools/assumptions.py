import re,glob
d='/verif/rocq/theories/'
files=[l.strip()[9:-2] for l in open('/verif/rocq/_CoqProject') if l.strip().endswith('.v')]
files=[f for f in files if f.startswith('Props') or f=='Size']
ts=[]
for f in files: ts+=re.findall(r'^Theorem (C\d\d_\w+)',open(d+f+'.v').read(),re.M)
s=open(d+'Assumptions.v').read()
h=s[:s.index('From Verif')]
t=s[s.index(').\n',s.index('Definition all_properties')):]
open(d+'Assumptions.v','w').write(h+'From Verif Require Import '+' '.join(files)+'.\n\n(** All property theorems together. *)\nDefinition all_properties :=\n  ('+',\n   '.join('@'+x for x in sorted(ts))+t)
