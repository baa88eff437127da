#!/usr/bin/env python3
"""Apply each mutation of a list (python file defining M = [(file, definition, old, new, claim, property)]) to a scratch
copy of rocq/ outside /verif, rebuild, and append one line per attempt to /verif/seeded/LOG.jsonl."""
import sys,os,shutil,subprocess,json,re
spec=sys.argv[1]; only=[int(x) for x in sys.argv[2:]]
ns={}; exec(open(spec).read(),ns); M=ns['M']
D=os.environ.get('MUTDIR','/tmp/mut'); BASE=D+'/base'; W=D+'/work'
def sh(c,cwd): return subprocess.run(c,shell=True,cwd=cwd,stdout=subprocess.PIPE,stderr=subprocess.STDOUT,text=True)
os.makedirs(BASE,exist_ok=True)
sh('rsync -a --delete --exclude="*.vo*" --exclude="*.glob" --exclude=".*.aux" /verif/rocq/ %s/ 2>/dev/null || (rm -rf %s/theories; cp -r /verif/rocq/. %s/)'%(BASE,BASE,BASE),'/tmp')
r=sh('coq_makefile -f _CoqProject -o Makefile && timeout 1500 make -j3',BASE)
assert r.returncode==0, r.stdout[-2000:]
def lemma_at(path,line):
    name=None
    for i,l in enumerate(open(path),1):
        m=re.match(r'\s*(?:#\[[^\]]*\]\s*)?(?:Local )?(Lemma|Theorem|Corollary|Example|Fixpoint|Definition|Fact)\s+([\w\']+)',l)
        if m: name=m.group(2)
        if i>=line: break
    return name
manifest=json.load(open('/verif/MANIFEST.json'))['claims']
for k,(f,d,old,new,claim,prop) in enumerate(M):
    if only and k not in only: continue
    sh('rm -rf %s && cp -a %s %s'%(W,BASE,W),'/tmp')
    p='%s/theories/%s'%(W,f); s=open(p).read()
    if s.count(old)!=1: print(k,'PATTERN COUNT',s.count(old),d); continue
    open(p,'w').write(s.replace(old,new))
    deps={}
    for g in os.listdir(W+'/theories'):
        if g.endswith('.v'):
            t=open(W+'/theories/'+g).read()
            deps[g[:-2]]=set(x for m in re.finditer(r'From Verif Require Import ([^.]*)\.',t) for x in m.group(1).split())
    hitf={f[:-2]}
    while True:
        n=hitf|{g for g in deps if deps[g]&hitf}
        if n==hitf: break
        hitf=n
    for g in hitf:
        q='%s/theories/%s.vo'%(W,g)
        if os.path.exists(q): os.remove(q)
    r=sh('timeout 1500 make -k -j3 2>&1',W)
    errs=[]
    for m in re.finditer(r'File "\./theories/(\w+\.v)", line (\d+)',r.stdout):
        errs.append((m.group(1)[:-2],lemma_at(W+'/theories/'+m.group(1),int(m.group(2)))))
    # property theorems that no longer build: those in files with an error (at or after it) or depending on one
    broken=[]
    for c in manifest:
        for t in c['theorems']:
            g=sh('grep -lE "^(Theorem|Lemma|Corollary) %s\\b" theories/*.v'%t,W).stdout.strip()
            if not g: continue
            b=os.path.basename(g)[:-2]
            if os.path.exists(W+'/theories/%s.vo'%b): continue
            own=[e for e in errs if e[0]==b]
            if own:
                txt=open(W+'/theories/%s.v'%b).read()
                et=own[0][1]
                pe=re.search(r'(Lemma|Theorem|Corollary|Example|Fixpoint|Definition|Fact)\s+%s\b'%re.escape(et),txt).start() if et else 0
                if txt.find(' '+t)<pe: continue
            broken.append(t)
    direct=['%s.%s'%e for e in errs]
    hit=[t for t in broken if t.startswith(prop)]
    out={"n":k,"definition":d,"file":f,"edit":"%s  ==>  %s"%(old,new),"claim_broken":"%s: %s"%(prop,claim),"caught":bool(errs),
         "first_failures":direct,"theorems_failed":hit if hit else broken[:6],"theorems_tightened":[]}
    out['properties_not_rebuilt']=sorted({t[:3] for t in broken})
    print(k,d,'CAUGHT' if errs else 'SURVIVED',direct,hit,flush=True)
    o=dict(out); o.pop('n')
    with open(D+'/out.jsonl','a') as fh: fh.write(json.dumps(o)+'\n')
