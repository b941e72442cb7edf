#!/usr/bin/env python3
"""Seeded-bug tests. usage: mutate.py mutations.json [name ...]
Each mutation: {"name","file","def","old","new","edit","breaks","expect":[ids]}.  The edit is applied in a scratch copy of
/verif/rocq; proofs that no longer go through are replaced by an open goal so that the rest can be checked; a theorem
has failed if its own proof breaks or it rests on a broken lemma (Print Assumptions).  Results go to seeded/LOG.jsonl."""
import sys,os,re,json,subprocess,shutil,glob,time
D=os.environ.get('SCRATCH','/tmp/mut'); S=D+'/rocq'; V=os.environ.get('SNAP','/verif/rocq')
DECL=re.compile(r'^\s*(?:Local |Global |#\[[^\]]*\] )*(Theorem|Lemma|Example|Corollary|Fact|Remark|Definition|Fixpoint|Instance|Program)\s+([A-Za-z0-9_\']+)',re.M)
def sh(c,t=1500):
    try: return subprocess.run(c,shell=True,stdout=subprocess.PIPE,stderr=subprocess.STDOUT,timeout=t,text=True).stdout
    except subprocess.TimeoutExpired as e: return (e.stdout or b'').decode() if isinstance(e.stdout,bytes) else (e.stdout or '')
def build():
    return sh(f"cd {S} && ulimit -v 9000000; timeout 1400 make -k -j{os.environ.get('J','4')} COQEXTRAFLAGS='-set \"Default Timeout=100\"' 2>&1")
def admit(f,line):
    p=f'{S}/{f}'; s=open(p).read(); pos=sum(len(x)+1 for x in s.split('\n')[:line-1])
    best=None
    for m in DECL.finditer(s):
        if m.start()<=pos+200 and s.count('\n',0,m.start())+1<=line: best=m
    if not best: return None
    end=re.compile(r'\b(Qed|Defined)\.').search(s,best.end())
    pr=re.compile(r'\bProof\b').search(s,best.end())
    if not end or not pr or pr.start()>end.start(): return ('STATEMENT '+best.group(2),False)
    if line<s.count('\n',0,pr.start())+1: 
        return ('STATEMENT '+best.group(2),False)
    s=s[:pr.start()]+'Proof. Admitted.'+'\n'*s.count('\n',pr.start(),end.end())+s[end.end():]
    open(p,'w').write(s); return (best.group(2),True)
def run(mu):
    shutil.rmtree(D,ignore_errors=True); os.makedirs(D); sh(f'cp -a {V} {S}')
    p=f"{S}/theories/{mu['file']}"; s=open(p).read()
    n=s.count(mu['old'])
    if n!=mu.get('count',1): return {'error':f'old text occurs {n} times'}
    open(p,'w').write(s.replace(mu['old'],mu['new']))
    sh(f'cd {S} && coq_makefile -f _CoqProject -o Makefile')
    broken=[];stuck=[];t0=time.time()
    for rnd in range(40):
        out=build()
        errs=re.findall(r'File "\./(theories/[^"]+)", line (\d+), characters [^\n]*\n(?:Warning|(Error))',out)
        errs=[(f,int(l)) for f,l,e in errs if e]
        errs=list(dict.fromkeys(errs)); new=False
        for f,l in errs:
            r=admit(f,l)
            if r and r[1]: broken.append((f,r[0])); new=True
            else:
                if (f,r) not in stuck: stuck.append((f,r))
        if not errs or not new: break
    # which claims fail
    built=[f for f in glob.glob(S+'/theories/Props/*.v') if os.path.exists(f+'o')]
    nob=[os.path.basename(f) for f in glob.glob(S+'/theories/Props/*.v') if not os.path.exists(f+'o')]
    names=[]; req=[]
    for f in sorted(built):
        if os.path.getmtime(f+'o')<t0: continue  # not affected by the edit
        mod=os.path.basename(f)[:-2]; req.append(mod)
        names+=[(mod,x) for x in re.findall(r'^(?:Theorem|Lemma|Corollary)\s+(C\d\d+_\w+)',open(f).read(),re.M)]
    failed=[]
    if names and broken:
        # one query per theorem to keep outputs apart
        for m,x in names:
            pass
        body=''.join(f'From Verif.Props Require {m}.\n' for m in req)
        body+=''.join(f'Goal True. idtac "@@ {x}". exact I. Qed.\nPrint Assumptions {m}.{x}.\n' for m,x in names)
        open(D+'/q.v','w').write(body)
        out=sh(f'cd {S} && coqc -Q theories Verif -o {D}/q.vo {D}/q.v 2>&1',2400)
        bset=set(b for _,b in broken); cur=None
        for ln in out.split('\n'):
            m=re.match(r'@@ (\w+)',ln)
            if m: cur=m.group(1); continue
            m=re.match(r'([\w\.\']+)\s*(:|$)',ln)
            if m and cur and m.group(1).split('.')[-1] in bset:
                if cur not in failed: failed.append(cur)
    direct=[b for _,b in broken if re.match(r'C\d\d+_',b) ]
    for d in direct:
        if d not in failed: failed.append(d)
    return {'failed':sorted(failed),'broken_proofs':[b for _,b in broken],'blocked_files':nob,'stuck':[str(x) for x in stuck]}
if __name__=='__main__':
    mus=json.load(open(sys.argv[1])); sel=sys.argv[2:]
    for mu in mus:
        if sel and mu['name'] not in sel: continue
        r=run(mu)
        print(mu['name'],json.dumps(r),flush=True)
        if 'error' in r: continue
        e={'definition':f"{mu['file']}: {mu['def']}",'edit':mu['edit'],'breaks':mu['breaks'],'failed':r['failed'],
           'broken_lemmas':[b for b in r['broken_proofs'] if not re.match(r'C\d\d+',b)][:12],'tightened':mu.get('tightened',[])}
        if r['blocked_files']: e['files_not_checkable']=r['blocked_files']
        open('/tmp/mut_results.jsonl','a').write(json.dumps(dict(mu,result=r))+'\n')
        hit=any(x[:3] in mu['expect'] for x in r['failed'])
        e['caught']=hit
        if not hit: print('   !!! SURVIVED or unexpected',mu['name'],flush=True)
        open('/verif/seeded/LOG.jsonl','a').write(json.dumps(e)+'\n')
