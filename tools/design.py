import json,re,glob,os
root='/verif'
props=[json.loads(l) for l in open(root+'/properties.jsonl')]
man={c['property']:c for c in json.load(open(root+'/MANIFEST.json'))['claims']}
where={}
for f in glob.glob(root+'/rocq/theories/*.v'):
    for m in re.finditer(r'^\s*(?:Theorem|Lemma|Corollary|Proposition|Fact|Remark)\s+(\w+)',open(f).read(),re.M):
        where.setdefault(m.group(1),os.path.basename(f))
out=[open(root+'/tools/design_head.md').read()]
out.append('| id | property | status | theorems (file) | note |\n|---|---|---|---|---|\n')
for p in props:
    c=man.get(p['id'])
    if not c:
        out.append('| %s | %s | planned | | |\n'%(p['id'],p['title'])); continue
    byf={}
    for t in c['theorems']: byf.setdefault(where.get(t,'?'),[]).append(t)
    th='; '.join('%s (%s)'%(', '.join(v),k) for k,v in byf.items())
    out.append('| %s | %s | %s | %s | %s |\n'%(p['id'],p['title'],c['status'],th,c.get('note','').replace('|','/')))
open(root+'/DESIGN.md','w').write(''.join(out))
