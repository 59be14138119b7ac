#!/usr/bin/env python3
"""Put a bug into a scratch copy of the model and see which proofs break.

usage: mutate.py MUTANTS.json OUT.jsonl [workers]
MUTANTS.json: list of {id, file, old, new, claim, why}.  The scratch copy lives in /tmp/m.
All files are compiled to .vos (statements only), then every file that depends on the edited one is
checked with -vok; a proof that fails is replaced by Admitted (in the scratch copy only), recorded,
and the file is checked again.  Theorems that use a recorded one (by the .glob files) are broken too."""
import sys,os,re,json,subprocess,shutil,glob,time
from concurrent.futures import ThreadPoolExecutor
SRC=os.environ.get('SRC','/verif/rocq')
USING=json.load(open(os.path.dirname(os.path.abspath(__file__))+'/using.json'))
def annotate(s):
    for n,u in USING.items():
        s=re.sub(r'((?:Lemma|Theorem|Fixpoint)\s+'+re.escape(n)+r'(?![\w\']).*?\bProof)\.',lambda m:m.group(1)+' using '+u+'.',s,1,re.S)
    return s
def order():
    return [l.strip()[9:-2] for l in open(SRC+'/_CoqProject') if l.strip().endswith('.v')]
ORDER=[f for f in order() if f!='Assumptions']
def deps(f):
    s=open(f'{SRC}/theories/{f}.v').read()
    d=set()
    for m in re.finditer(r'From Verif Require Import ([^.]*)\.',s): d|=set(m.group(1).split())
    return d
DEPS={f:deps(f) for f in ORDER}
def dependents(f):
    r={f}
    for g in ORDER:
        if DEPS[g]&r: r.add(g)
    return r
# dependency graph of lemmas
def graph():
    g={}
    for f in ORDER:
        cur=None; defs=[];refs=[]
        for l in open(f'{SRC}/theories/{f}.glob'):
            m=re.match(r'^R(\d+):\d+ (\S+) (\S+) (\S+) (\S+)',l)
            if m:
                if m.group(2).startswith('Verif.'): refs.append((int(m.group(1)),(m.group(2)[6:],m.group(4))))
                continue
            m=re.match(r'^(prf|def|thm|ind|rec|constr|proj|inst|class|coe|scheme|lemma)\S* (\d+):\d+ (\S+) (\S+)',l)
            if m: defs.append((int(m.group(2)),m.group(4)))
        defs.sort();refs.sort();i=0
        for o,n in defs: g.setdefault((f,n),set())
        for o,r in refs:
            while i+1<len(defs) and defs[i+1][0]<=o: i+=1
            if defs and defs[i][0]<=o: g[(f,defs[i][1])].add(r)
    return g
START=re.compile(r'^\s*(?:Global |Local |#\[[a-z]*\] )?(?:Lemma|Theorem|Example|Corollary|Instance|Fixpoint)\s+([A-Za-z0-9_\']+)')
def admit(lines,n):
    """replace the proof around line n (0-based); returns its name"""
    i=n
    while i>=0 and not START.match(lines[i]): i-=1
    if i<0: return None
    name=START.match(lines[i]).group(1)
    j=i
    while j<len(lines) and 'Proof' not in lines[j]: j+=1
    k=j
    while k<len(lines) and not re.search(r'\b(Qed|Defined)\.',lines[k]): k+=1
    if k>=len(lines) or k<n: return None
    head=lines[j][:lines[j].index('Proof')]
    tail=re.split(r'\b(?:Qed|Defined)\.',lines[k],1)[1]
    for x in range(j,k+1): lines[x]=''
    lines[j]=head+'Admitted.'+('' if j!=k else tail)
    if j!=k: lines[k]=tail
    return name
def run(cmd,cwd,t):
    try:
        p=subprocess.run(cmd,cwd=cwd,stdout=subprocess.PIPE,stderr=subprocess.STDOUT,timeout=t,text=True)
        return p.returncode,p.stdout
    except subprocess.TimeoutExpired as e:
        return 99,(e.stdout or b'').decode() if isinstance(e.stdout,bytes) else (e.stdout or '')
def check(work,f,mode,fails,tmax,budget):
    p=f'{work}/theories/{f}.v'
    t0=time.time()
    while True:
        rc,out=run(['coqc','-q','-Q','theories','Verif','-w','none',mode,f'theories/{f}.v'],work,tmax)
        if rc==0: return True
        if rc==99: fails.append((f,'<timeout>')); return False
        m=re.search(r'line (\d+), characters',out)
        if not m: fails.append((f,'<'+out[-200:]+'>')); return False
        lines=open(p).read().split('\n')
        name=admit(lines,int(m.group(1))-1)
        if name is None:
            fails.append((f,'<definition line %s: %s>'%(m.group(1),out[-300:]))); return False
        fails.append((f,name))
        open(p,'w').write('\n'.join(lines))
        if time.time()-t0>budget: fails.append((f,'<budget>')); return False
def one(mu,workers,G,props):
    work=os.environ.get('WORK','/tmp/m/work')
    shutil.rmtree(work,ignore_errors=True)
    os.makedirs(work+'/theories')
    for f in ORDER:
        s=open(f'{SRC}/theories/{f}.v').read()
        if f==mu['file']:
            assert s.count(mu['old'])==1 or not mu['old'],(mu['id'],s.count(mu['old']))
            if not mu['old']: mu['old']='\0'
            s=s.replace(mu['old'],mu['new'])
        open(f'{work}/theories/{f}.v','w').write('Set Default Proof Using "Type". '+annotate(s))
    aff=[f for f in ORDER if f in dependents(mu['file'])]
    fails=[]
    cache=os.environ.get('CACHE','/tmp/m/cache')
    os.makedirs(cache,exist_ok=True)
    for f in ORDER:
        src=f'{SRC}/theories/{f}.v'
        if f not in aff:
            c=f'{cache}/{f}.vos'
            if os.path.exists(c) and os.path.getmtime(c)>os.path.getmtime(src):
                shutil.copy2(c,f'{work}/theories/{f}.vos');continue
        ok=check(work,f,'-vos',fails,300,300)
        if not ok: return dict(mu,invalid=fails)
        if f not in aff: shutil.copy2(f'{work}/theories/{f}.vos',f'{cache}/{f}.vos')
    def vok(f):
        l=[]
        check(work,f,'-vok',l,900,1200)
        return l
    with ThreadPoolExecutor(workers) as ex:
        for l in ex.map(vok,aff): fails+=l
    bad={x for x in fails}
    # transitive
    rev={}
    for a,rs in G.items():
        for r in rs: rev.setdefault(r,set()).add(a)
    st=list(bad);allbad=set(bad)
    while st:
        x=st.pop()
        for y in rev.get(x,()):
            if y not in allbad: allbad.add(y);st.append(y)
    direct=sorted(n for f,n in bad)
    pb=sorted(n for f,n in allbad if n in props)
    return dict(id=mu['id'],file=mu['file'],claim=mu['claim'],direct=direct,props_broken=pb,
                props_direct=sorted(n for f,n in bad if re.match(r'C\d\d_',n)),
                claims_broken=sorted({n[:3] for n in pb}))
def main():
    mus=json.load(open(sys.argv[1]));out=sys.argv[2];w=int(sys.argv[3]) if len(sys.argv)>3 else 3
    G=graph()
    props=set()
    for f in ORDER:
        if f.startswith('Props') or f=='Size':
            props|=set(re.findall(r'^Theorem (C\d\d_\w+)',open(f'{SRC}/theories/{f}.v').read(),re.M))
    done=set()
    if os.path.exists(out): done={json.loads(l)['id'] for l in open(out)}
    for mu in mus:
        if mu['id'] in done: continue
        t=time.time()
        r=one(mu,w,G,props); r['secs']=int(time.time()-t)
        open(out,'a').write(json.dumps(r)+'\n')
        print(mu['id'],mu['claim'],'INVALID' if 'invalid' in r else (len(r['direct']),r['claims_broken']),r['secs'],flush=True)
main()
