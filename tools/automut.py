#!/usr/bin/env python3
"""Random seeded bugs, generated: small edits of the definitions of the model files.
usage: automut.py OUT SECONDS SEED N_PER_DEF FILE...   (works in /tmp/amut, results as JSON lines in OUT)"""
import sys,subprocess,re,json,os,random,time
out,secs,seed,nper=sys.argv[1],float(sys.argv[2]),int(sys.argv[3]),int(sys.argv[4]); files=sys.argv[5:]
rnd=random.Random(seed)
SRC=os.environ.get('AMSRC','/verif/rocq/');DST=os.environ.get('AMDST','/tmp/amut/rocq/')
def sh(c,**k): return subprocess.run(c,shell=True,capture_output=True,text=True,**k)
import shutil,signal
def sync():
    if not os.path.exists(DST): sh(f'mkdir -p {DST} && cp -a {SRC}. {DST}'); return
    for sub in ('','theories/'):
        A={x.name:x for x in os.scandir(SRC+sub) if x.is_file()}; B={x.name:x for x in os.scandir(DST+sub) if x.is_file()}
        for n in B:
            if n not in A: os.remove(DST+sub+n)
        for n,x in A.items():
            a=x.stat()
            if n in B:
                b=B[n].stat()
                if (a.st_mtime_ns,a.st_size)==(b.st_mtime_ns,b.st_size): continue
            shutil.copy2(SRC+sub+n,DST+sub+n)
def run(c,t):
    """run in its own process group, kill all of it after t seconds"""
    p=subprocess.Popen('ulimit -v 5000000; '+c,shell=True,stdout=subprocess.PIPE,stderr=subprocess.STDOUT,text=True,start_new_session=True,executable='/bin/bash')
    try: o,_=p.communicate(timeout=t); return p.returncode,o
    except subprocess.TimeoutExpired:
        os.killpg(p.pid,signal.SIGKILL); p.communicate(); return None,''
START=re.compile(r'^(\s*)(?:Local |Program )?(Definition|Fixpoint|CoFixpoint)\s+([\w\']+)',re.M)
def defs(t):
    """(name, start, end) of every definition that ends with a dot"""
    for g in START.finditer(t):
        m=re.compile(r'\.(?=\s|$)').search(t,g.end())
        e=m.end() if m else len(t)
        body=t[g.start():e]
        i=body.find(':=')
        if i<0: continue
        yield g.group(3),g.start()+i+2,e,body[:i]
def strip_comments_spans(t):
    sp=[];d=0;st=0;i=0
    while i<len(t)-1:
        if t[i:i+2]=='(*': 
            if d==0: st=i
            d+=1;i+=2;continue
        if t[i:i+2]=='*)' and d>0:
            d-=1;i+=2
            if d==0: sp.append((st,i))
            continue
        i+=1
    return sp
def nullary(t):
    res={}
    for m in re.finditer(r'Inductive\s+\w+[^.]*?:=(.*?)\.(?=\s)',t,re.S):
        body=re.sub(r'\(\*.*?\*\)','',m.group(1),flags=re.S)
        cs=[c.strip() for c in body.split('|')]
        cs=[c for c in cs if re.fullmatch(r"[A-Z]\w*",c)]
        for c in cs: res[c]=[d for d in cs if d!=c]
    return res
def atom_end(s,i):
    while i<len(s) and s[i]==' ': i+=1
    if i<len(s) and s[i]=='(':
        d=0
        while i<len(s):
            if s[i]=='(': d+=1
            if s[i]==')':
                d-=1
                if d==0: return i+1
            i+=1
        return None
    m=re.compile(r"[\w'.]+(%\w+)?").match(s,i)
    return m.end() if m else None
def mutants(t,name,a,b,head,null,spans):
    s=t[a:b]; R=[]
    def ok(i): return not any(x<=a+i<y for x,y in spans)
    def sub(rx,f,what):
        for m in re.finditer(rx,s):
            if not ok(m.start()): continue
            r=f(m)
            for x in (r if isinstance(r,list) else [r]):
                if x is not None and x!=m.group(0): R.append((a+m.start(),a+m.end(),x,what))
    sub(r'<\?',lambda m:'<=?','wrong boundary'); sub(r'<=\?',lambda m:'<?','wrong boundary')
    sub(r'&&',lambda m:'||','and/or'); sub(r'\|\|',lambda m:'&&','and/or')
    sub(r'\bnegb ',lambda m:'','dropped negation'); sub(r'\btrue\b',lambda m:'false','flag'); sub(r'\bfalse\b',lambda m:'true','flag')
    sub(r' [+-] 1\b',lambda m:'','off by one'); sub(r'\bS (?=\w)',lambda m:'','off by one')
    sub(r'(?<![\w."])\d+\b(?!")',lambda m:[str(int(m.group(0))+1)]+([str(int(m.group(0))-1)] if int(m.group(0))>0 else []),'constant')
    sub(r'bs "([^"]*)"',lambda m:['bs ""' if m.group(1) else None,'bs "%sx"'%m.group(1)],'string')
    sub(r'"(.)"%char',lambda m:'"%s"%%char'%('_' if m.group(1)!='_' else '-'),'character')
    sub(r"\b(aset|adel|nset|set_nth|lset)\b(?= )",lambda m:None,'')
    for m in re.finditer(r"\b(aset|adel|akeep)\b (?=\S)",s):
        i=m.end(); nargs={'aset':3,'adel':2,'akeep':2}[m.group(1)]; args=[];j=i
        for _ in range(nargs):
            e=atom_end(s,j)
            if e is None: break
            args.append(s[j:e].strip()); j=e
        else:
            keep=args[1] if m.group(1)=='akeep' else args[0]
            if ok(m.start()): R.append((a+m.start(),a+j,keep,'dropped update'))
    # ++ operands dropped
    for m in re.finditer(r"\+\+ ",s):
        e=atom_end(s,m.end())
        if e and ok(m.start()): R.append((a+m.start(),a+e,'++ []','dropped part'))
    for m in re.finditer(r"\bif ",s):
        e=re.compile(r'\bthen\b').search(s,m.end())
        if e and ok(m.start()) and 'if ' not in s[m.end():e.start()] and 'match' not in s[m.end():e.start()]:
            R.append((a+m.end(),a+e.start(),'negb (%s) '%s[m.end():e.start()].strip(),'inverted condition'))
            R.append((a+m.end(),a+e.start(),'true ','condition always true')); R.append((a+m.end(),a+e.start(),'false ','condition always false'))
    for m in re.finditer(r"\b[A-Z]\w*\b",s):
        if m.group(0) in null and ok(m.start()):
            for d in null[m.group(0)]: R.append((a+m.start(),a+m.end(),d,'wrong outcome'))
    # variables swapped
    vs=set(re.findall(r"[(\s]([a-z]\w*'?)(?=[\w' ]*:)",head))|set(re.findall(r"\blet ([a-z]\w*'?) :=",s))|set(re.findall(r"\bfun ([a-z]\w*)",s))|set(re.findall(r"(?:Some|::) ([a-z]\w*'?) =>",s))
    vs=[v for v in vs if v not in('fun','match','if','let')]
    for m in re.finditer(r"(?<![\w.'])[a-z]\w*'?(?![\w'])",s):
        if m.group(0) in vs and ok(m.start()):
            for v in vs:
                if v!=m.group(0): R.append((a+m.start(),a+m.end(),v,'wrong variable'))
    return R
def owner(f,line):
    L=open(DST+'theories/'+f).read().split('\n')[:line]
    for l in reversed(L):
        g=re.match(r'\s*(?:Local |Global |Program )?(Theorem|Lemma|Corollary|Example|Definition|Fixpoint|CoFixpoint|Fact|Inductive|Record|Notation|Let)\s+([\w\']+)',l)
        if g: return g.group(1),g.group(2)
    return '?','?'
jobs=[]
for f in files:
    t=open(SRC+'theories/'+f).read(); null=nullary(t); spans=strip_comments_spans(t)
    for name,a,b,head in defs(t):
        ms=mutants(t,name,a,b,head,null,spans)
        byk={}
        for x in ms: byk.setdefault(x[3],[]).append(x)
        # at most a third "wrong variable"
        var=byk.pop('wrong variable',[]); rest=[x for v in byk.values() for x in v]
        rnd.shuffle(var); rnd.shuffle(rest)
        pick=rest[:nper]+var[:3*max(2,nper//2)]
        jobs.append([(f,name,t,x) for x in pick])
J=[]
while any(jobs):
    for j in jobs:
        if j: J.append(j.pop(0))
print(len(J),'candidates',flush=True)
t0=time.time(); done={}
seen=set()
if os.path.exists(out):
    for l in open(out):
        d=json.loads(l); seen.add((d['file'],d['name'],d['ctx'],d['new']))
nvar={}
for f,name,t,(x,y,new,what) in J:
    if time.time()-t0>secs: break
    ctx=t[max(0,x-60):x]+'<<'+t[x:y]+'>>'+t[y:y+40]
    if (f,name,ctx,new) in seen: continue
    if what=='wrong variable' and nvar.get((f,name),0)>=max(1,nper//3): continue
    sync()
    p=DST+'theories/'+f; open(p,'w').write(t[:x]+new+t[y:])
    rc,o=run(f'cd {DST} && coqc -Q theories Verif theories/{f}',120)
    m=re.search(r'line (\d+)[^\n]*\n(?:[^\n]*\n)*?Error',o)
    res=None;fails=[]
    if rc!=0:
        k,o=owner(f,int(m.group(1))) if m else ('?','?')
        if k in('Lemma','Theorem','Example','Corollary','Fact'): res='killed'; fails=[f+':'+o]
        else: res='illtyped'
    if res is None:
        rc,o=run(f'cd {DST} && make -j3 COQC="timeout 200 coqc"',900)
        fl=re.findall(r'File "\./theories/([^"]+)", line (\d+)[^\n]*\n(?:[^\n]*\n)*?Error',o)
        fails=sorted(set(a+':'+owner(a,int(b))[1] for a,b in fl))
        res='timeout' if rc is None else 'killed' if rc!=0 else 'SURVIVED'
    if what=='wrong variable' and res!='illtyped': nvar[(f,name)]=nvar.get((f,name),0)+1
    with open(out,'a') as g: g.write(json.dumps(dict(file=f,name=name,what=what,ctx=ctx,new=new,res=res,fails=fails))+'\n')
    done[res]=done.get(res,0)+1
    if res in('SURVIVED','timeout') or (res=='killed' and not fails): print(res,f,name,what,repr(ctx),'->',new,int(time.time()-t0),flush=True)
print(done,int(time.time()-t0),flush=True)
