#!/usr/bin/env python3
"""Generate MANIFEST.json from tools/claims.txt and check theorem names exist.
Line format:  Cxx | status | thm1 thm2 | note
"""
import json,re,glob,os
base=os.path.dirname(os.path.dirname(os.path.abspath(__file__)))
names=set()
for f in glob.glob(base+'/rocq/theories/*.v'):
    names|=set(re.findall(r'^\s*(?:Theorem|Lemma|Corollary|Proposition|Fact|Remark)\s+([\w\']+)',open(f).read(),re.M))
claims=[];seen=set()
for l in open(base+'/tools/claims.txt'):
    l=l.strip()
    if not l or l.startswith('#'): continue
    p,s,t,n=[x.strip() for x in l.split('|',3)]
    ths=t.split()
    for x in ths:
        assert x in names,(p,x)
    assert p not in seen,p
    seen.add(p)
    claims.append(dict(property=p,status=s,theorems=ths,note=n))
json.dump({"claims":claims},open(base+'/MANIFEST.json','w'),indent=1)
props=[json.loads(l)['id'] for l in open(base+'/properties.jsonl')]
print(len(claims),'claims; missing',[p for p in props if p not in seen])
cited={x for c in claims for x in c['theorems']}
allp=set()
for f in glob.glob(base+'/rocq/theories/Props_*.v'):
    allp|=set(re.findall(r'^Theorem\s+([\w\']+)',open(f).read(),re.M))
print('uncited Props theorems',sorted(allp-cited))
