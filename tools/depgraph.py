#!/usr/bin/env python3
"""Which lemmas does each proof use?  From the printed proof terms of a compiled tree (hints and tactics included).
usage: depgraph.py ROCQ_DIR OUT.json"""
import re,sys,json,subprocess,os
src,out=sys.argv[1],sys.argv[2]
files=[l.strip()[9:-2] for l in open(src+'/_CoqProject') if l.strip().endswith('.v')]
files=[f for f in files if f!='Assumptions']
names={}
for f in files:
    for n in re.findall(r'^\s*(?:#\[[a-z]*\] |Global |Local )?(?:Lemma|Theorem|Example|Corollary|Instance)\s+([\w\']+)',open(f'{src}/theories/{f}.v').read(),re.M):
        names.setdefault(n,[]).append(f)
g={}
for k,f in enumerate(files):
    own=[n for n in names if f in names[n]]
    if not own: continue
    t='From Verif Require Import '+' '.join(files[:k+1])+'.\nSet Printing Depth 100000000.\nSet Printing Width 2000.\nSet Warnings "-all".\n'
    for n in own: t+=f'Print {f}.{n}.\n'
    p=f'/tmp/w/dep/D_{f}.v'
    open(p,'w').write(t)
    pr=subprocess.Popen(['coqc','-q','-Q',src+'/theories','Verif',p],stdout=subprocess.PIPE,stderr=subprocess.DEVNULL,text=True)
    cur=None
    for l in pr.stdout:
        m=re.match(r"^(?:[A-Za-z]+\.)?([\w']+)(?:@\{.*\})? =\s*$",l) or re.match(r"^(?:[A-Za-z]+\.)?([\w']+) = ",l)
        if m and m.group(1) in names and f in names[m.group(1)]:
            cur=m.group(1); g[f+'.'+cur]=set()
        if cur is None: continue
        for q,w in re.findall(r"(?:\b([A-Z]\w*)\.)?\b([A-Za-z_][\w']*)",l):
            if w in names:
                fs=names[w]
                h=q if q in fs else ([x for x in fs if x in files[:k+1]] or fs)[-1]
                if h+'.'+w!=f+'.'+cur: g[f+'.'+cur].add(h+'.'+w)
    pr.wait()
    print(f,len(own),sum(1 for n in own if f+'.'+n in g),flush=True)
json.dump({a:sorted(b) for a,b in g.items()},open(out,'w'))
