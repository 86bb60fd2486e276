#!/usr/bin/env python3
"""Run seeded bugs against the theorems.
usage: mutate.py mutants.py   (a file defining M = [(file, old, new, claim, what), ...])
Works in /tmp/mut, appends one JSON line per mutant to /verif/seeded/LOG.jsonl."""
import sys,subprocess,re,json,os,importlib.util
SRC='/verif/rocq/';DST='/tmp/mut/rocq/'
spec=importlib.util.spec_from_file_location('m',sys.argv[1]);m=importlib.util.module_from_spec(spec);spec.loader.exec_module(m)
def sync(): subprocess.run(f'rm -rf {DST} && mkdir -p {DST} && cp -a {SRC}. {DST}',shell=True,check=True)
def owner(f,line):
    L=open(DST+f.lstrip('./')).read().split('\n')[:line]
    for l in reversed(L):
        g=re.match(r'\s*(?:Local |Global )?(Theorem|Lemma|Corollary|Example|Definition|Fixpoint|Fact|Inductive)\s+([\w\']+)',l)
        if g: return g.group(2)
    return '?'
def enclosing(f,text,old):
    i=text.index(old)
    g=re.findall(r'(?:Definition|Fixpoint|Inductive|Record|Variable)\s+([\w\']+)',text[:i+len(old)])
    return g[-1] if g else '?'
for row in m.M:
    f,old,new,claim,what=row[:5]; also=row[5] if len(row)>5 else []
    sync()
    path=DST+'theories/'+f; t=open(path).read()
    if t.count(old)!=1: print('BAD',f,t.count(old),old); continue
    d=enclosing(f,t,old)
    open(path,'w').write(t.replace(old,new))
    for (f2,o2,n2) in also:
        t2=open(DST+'theories/'+f2).read(); assert t2.count(o2)==1,(f2,o2,t2.count(o2))
        open(DST+'theories/'+f2,'w').write(t2.replace(o2,n2))
    try:
        r=subprocess.run('make -k -j4 2>&1',shell=True,cwd=DST,capture_output=True,text=True,timeout=900); o=r.stdout
    except subprocess.TimeoutExpired: o='TIMEOUT'; 
    fails=[(a,owner(a,int(b))) for a,b in re.findall(r'File "(\./theories/[^"]+)", line (\d+)[^\n]*\n(?:[^\n]*\n)*?Error',o)]
    fails=sorted(set(a.replace('./theories/','')+':'+b for a,b in fails))
    model_broken=any(x.startswith(f+':') and x.endswith(':'+d) for x in fails)
    print('SURVIVED' if not fails and 'TIMEOUT' not in o else ('ILLTYPED' if model_broken else 'killed'),f,d,'|',what,'|',fails[:6],flush=True)
    if model_broken: continue
    with open('/verif/seeded/LOG.jsonl','a') as g:
        g.write(json.dumps(dict(definition=f'{f}: {d}',edit=what+f' [{old.strip()[:120]} -> {new.strip()[:120]}]',claim=claim,theorems_failed=fails if fails else [],theorems_tightened=[]))+'\n')
