import re,glob,json
src=''.join(open(f).read() for f in sorted(glob.glob('/verif/rocq/theories/Props*.v'))+['/verif/rocq/theories/Size.v'])
ts=re.findall(r'^Theorem (C\d\d_\w+)',src,re.M)
notes=json.load(open('/tmp/w/notes.json'))
props=[json.loads(l) for l in open('/verif/properties.jsonl')]
claims=[]
for p in props:
    st,note=notes[p['id']]
    th=[t for t in ts if t.startswith(p['id']+'_')]
    assert th,p['id']
    if any('refuted' in t for t in th) : assert st=='partial',p['id']
    claims.append(dict(property=p['id'],status=st,theorems=th,note=note))
json.dump({"claims":claims},open('/verif/MANIFEST.json','w'),indent=1)
used={t for c in claims for t in c['theorems']}
print(len(claims),len(used),set(ts)-used)
from collections import Counter; print(Counter(c['status'] for c in claims))
