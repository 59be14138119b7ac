#!/usr/bin/env python3
"""Turn mutate.py results into seeded/LOG.jsonl lines.
usage: log.py MUTANTS.json OUT.jsonl GRAPH.json EXTRA.json >> LOG.jsonl
The transitive closure is recomputed with the proof-term graph of depgraph.py."""
import sys,json,re
mus={m['id']:m for m in json.load(open(sys.argv[1]))}
g=json.load(open(sys.argv[3]))
extra=json.load(open(sys.argv[4])) if len(sys.argv)>4 else {}
rev={}
for a,bs in g.items():
    for b in bs: rev.setdefault(b,set()).add(a)
byname={}
for a in g: byname.setdefault(a.split('.')[1],[]).append(a)
manifest=json.load(open('/verif/MANIFEST.json'))
props={t for c in manifest['claims'] for t in c['theorems']}
for l in open(sys.argv[2]):
    r=json.loads(l); m=mus[r['id']]
    if 'invalid' in r:
        print(json.dumps(dict(id=r['id'],invalid=str(r['invalid'])[:300],file=m['file']))); continue
    st=[x for n in r['direct'] for x in byname.get(n,[])]
    seen=set(st)
    while st:
        x=st.pop()
        for y in rev.get(x,()):
            if y not in seen: seen.add(y);st.append(y)
    broken=sorted(x.split('.')[1] for x in seen if x.split('.')[1] in props)
    defn=None
    src=open(f'/verif/rocq/theories/{m["file"]}.v').read()
    k=src.find(m['old'])
    if k>=0:
        ds=re.findall(r'^(?:Definition|Fixpoint|with|Inductive|Record)\s+([\w\']+)',src[:k+len(m['old'])],re.M)
        if m['old'].lstrip().startswith(('Definition','Fixpoint')): ds=re.findall(r'(?:Definition|Fixpoint)\s+([\w\']+)',m['old'])
        defn=ds[-1] if ds else None
    own=[t for t in broken if any(t.startswith(c) for c in m['claim'].split())]
    print(json.dumps(dict(id=r['id'],definition=f"{m['file']}.{defn}",edit=dict(old=m['old'],new=m['new']),what=m['why'],
      claim=m['claim'],theorems_of_the_claim_failed=own,proofs_failed_directly=r['direct'],
      theorems_failed=broken if len(broken)<=25 else broken[:8]+[f'... {len(broken)} in all'],
      tightened=extra.get(r['id'],[]))))
