#!/usr/bin/env python3
"""Test the theorems against wrong programs.  usage: seed.py mutations.json [id ...]
Each mutation: id, file, def, old, new, claim (English claim that becomes false), expect (property ids).
Works in a scratch copy: applies the edit, rebuilds; whenever a proof fails its script is replaced by Admitted (in the
scratch copy only) and the build goes on, so that all failing lemmas are found.  A property theorem counts as failed when
it, or a lemma its proof uses, failed.  Prints one JSON line per mutation."""
import json,os,re,shutil,subprocess,sys,time
SRC=os.environ.get('SRC','/verif/rocq'); W='/tmp/seed/w%d'%os.getpid()
def files(): return [l.strip().split('/')[1][:-2] for l in open(SRC+'/_CoqProject') if l.startswith('theories/')]
HEAD=re.compile(r'^ *(?:#\[\w+\] *)?(?:Lemma|Theorem|Example|Corollary|Remark|Instance|Definition|Fixpoint|Inductive|Record|Ltac) +([\w\']+)',re.M)
def decls(t):
    ms=list(HEAD.finditer(t)); return [(m.group(1),m.start(),ms[i+1].start() if i+1<len(ms) else len(t)) for i,m in enumerate(ms)]
def run(mu):
    shutil.rmtree(W,ignore_errors=True); shutil.copytree(SRC,W); t0=time.time()
    th=W+'/theories/'
    p=th+mu['file']; s=open(p).read()
    if s.count(mu['old'])!=1: return dict(id=mu['id'],error='old text occurs %d times'%s.count(mu['old']))
    open(p,'w').write(s.replace(mu['old'],mu['new']))
    failed=[]
    err=None
    for it in range(400):
        r=subprocess.run('make -k -j%s COQC="timeout 240 coqc" 2>&1'%os.environ.get('J','2'),shell=True,cwd=W,capture_output=True,text=True,errors='replace')
        if r.returncode==0: break
        es=[(f,int(l),int(c)) for f,l,c in re.findall(r'File "\./theories/(\w+)\.v", line (\d+), characters (\d+)-\d+:\nError',r.stdout)]
        slow=re.findall(r'theories/(\w+)\.vo\] Error 124',r.stdout)
        if slow: err='checking %s does not end within 240 s'%slow[0]; break
        if not es: err='build: '+r.stdout[-400:]; break
        for f,l,c in es:
            fp=th+f+'.v'; t=open(fp).read(); pos=sum(len(x)+1 for x in t.split('\n')[:l-1])+c
            cand=[d for d in decls(t) if d[1]<=pos<d[2]]
            if not cand: err='no decl at %s:%d'%(f,l); break
            n,a,z=cand[-1]; body=t[a:z]
            m=re.search(r'\bProof\b.*?\b(?:Qed|Defined)\.',body,re.S)
            if not m: err='definition %s in %s fails to check'%(n,f); break
            if m.group(0)=='Proof. Admitted.': err='stuck at '+n; break
            # statement itself broken?
            if pos<a+m.start(): err='statement of %s in %s fails to check'%(n,f); break
            body=body[:m.start()]+'Proof. Admitted.'+body[m.end():]
            open(fp,'w').write(t[:a]+body+t[z:]); failed.append(n)
        if err: break
    else: err='too many iterations'
    # which property theorems now rest on an admitted lemma: ask Coq
    props=[]
    pf=[f for f in files() if f.startswith('Properties_')]
    # files that were not rebuilt do not depend on the edited definition
    pf=[f for f in pf if not os.path.exists(th+f+'.vo') or os.path.getmtime(th+f+'.vo')>=t0-1]
    for f in pf:
        t=open(SRC+'/theories/%s.v'%f).read(); props+=[n for n,a,z in decls(t) if re.match(r'C\d\d+_',n)]
    broken=[]; broke_files=[]
    for f in pf:
        t=open(SRC+'/theories/%s.v'%f).read(); ns=[n for n,a,z in decls(t) if re.match(r'C\d\d+_',n)]
        open(th+'Chk.v','w').write('From Verif Require Import %s.\n'%f+''.join('Goal True. idtac "@@%s". Abort. Print Assumptions %s.\n'%(n,n) for n in ns))
        r=subprocess.run('timeout 600 coqc -Q . Verif Chk.v 2>&1',shell=True,cwd=th,capture_output=True,text=True,errors='replace')
        if r.returncode: broke_files.append(f); continue
        parts=re.split(r'^@@(\w+)$',r.stdout,flags=re.M)[1:]
        broken+=[parts[k] for k in range(0,len(parts),2) if 'Closed under' not in parts[k+1]]
    if broke_files: err=(err or '')+' unbuilt: '+' '.join(broke_files)
    broken=sorted(broken)
    ids=sorted({n.split('_')[0] for n in broken})
    exs=[n for n in failed if n.startswith('ex_')]
    out=dict(id=mu['id'],definition=mu['def'],edit=mu.get('edit') or ('%s  ==>  %s'%(mu['old'],mu['new'])),claim_broken=mu['claim'],first_failures=[n for n in failed if not n.startswith('ex_')],theorems_failed=broken,examples_failed=exs,
       expected=mu['expect'],expected_missed=[e for e in mu['expect'] if not any(n==e or n.split('_')[0]==e for n in broken)],error=err)
    shutil.rmtree(W,ignore_errors=True)
    return out
ms=json.load(open(sys.argv[1]))
if os.environ.get('REV'): ms=ms[::-1]
want=set(sys.argv[2:])
for mu in ms:
    if want and mu['id'] not in want: continue
    print(json.dumps(run(mu)),flush=True)
