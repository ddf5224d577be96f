#!/usr/bin/env python3
"""Seeded-bug runner: mutate.py MUTS.json
MUTS.json: list of {file, definition, old, new, claim, expect?, tightened?}. Each edit is applied to a scratch copy of /verif/rocq;
a proof that breaks is replaced by Admitted so that the build goes on, and the property theorems that then
depend on an admitted lemma (Print Assumptions) are the failed ones. Appends to seeded/LOG.jsonl."""
import sys,json,os,re,subprocess,shutil
SRC=os.environ.get('MUTSRC','/verif/rocq'); W=os.environ.get('MUTDIR','/tmp/mut')
TG=os.environ.get('MUTTARGETS','').split()  # if given: build and check only these property files
def sh(c,t=1500): 
    p=subprocess.run(c,shell=True,cwd=W,stdout=subprocess.PIPE,stderr=subprocess.STDOUT,text=True,timeout=t); return p.returncode,p.stdout
def prepare():
    shutil.rmtree(W,ignore_errors=True); subprocess.run(['cp','-a',SRC,W]); sh('coq_makefile -f _CoqProject -o Makefile'); 
def admit(f,line,ch):
    s=open(f).read(); lines=s.split('\n'); off=sum(len(x)+1 for x in lines[:line-1])+ch
    starts=[m for m in re.finditer(r'^[ \t]*(?:#\[[^\]]*\] *)?(?:Local |Global )?(Lemma|Theorem|Example|Corollary|Fact|Remark|Instance|Program \w+)\s+(\w+)',s,re.M) if m.start()<=off]
    if not starts: return None
    m=starts[-1]; name=m.group(2)
    p=re.compile(r'\bProof\b[^.]*\.').search(s,m.start())
    q=re.compile(r'\b(Qed|Defined)\.').search(s,p.end())
    if not (m.start()<=off<=q.end()): return None
    s2=s[:p.start()]+'Proof. Admitted.'+s[q.end():]
    open(f,'w').write(s2); return name
def run(mu):
    prepare(); f=W+'/theories/'+mu['file']; s=open(f).read()
    if s.count(mu['old'])!=1: return {'error':'pattern count %d'%s.count(mu['old'])}
    open(f,'w').write(s.replace(mu['old'],mu['new']))
    broken=[]; out=''
    for it in range(80):
        rc,out=sh("make -k -j2 TIMECMD='timeout 300' %s 2>&1"%' '.join('theories/%s.vo'%x for x in TG))
        if rc==0: break
        errs=re.findall(r'File "\./?(theories/\w+\.v)", line (\d+), characters (\d+)-\d+:\nError',out)
        tmo=re.findall(r'\*\*\* \[\S+: (theories/\w+)\.vo\] Error 124',out)
        if not errs:
            return {'error':'no located error: '+out[-600:]}
        done=set()
        for (ff,l,c) in errs:
            if ff in done: continue
            done.add(ff); n=admit(W+'/'+ff,int(l),int(c))
            if n is None: return {'error':'cannot admit at %s:%s'%(ff,l),'broken':broken,'out':out[-600:]}
            broken.append(n)
    else: return {'error':'too many'}
    # now which property theorems depend on admitted ones
    fails=[]
    props=[x for x in os.listdir(W+'/theories') if re.search(r'Props\d?\.v$',x) and (not TG or x[:-2] in TG)]
    for p in sorted(props):
        names=re.findall(r'^Theorem\s+(\w+)',open(W+'/theories/'+p).read(),re.M)
        t='From Verif Require Import %s.\n'%p[:-2]+''.join('Print Assumptions %s.\n'%n for n in names)
        # mark each
        t='From Verif Require Import %s.\n'%p[:-2]+''.join('Goal True. idtac "@@ %s". exact I. Qed.\nPrint Assumptions %s.\n'%(n,n) for n in names)
        open(W+'/chk.v','w').write(t); rc,o=sh('coqc -Q theories Verif chk.v')
        for part in o.split('@@ ')[1:]:
            nm=part.split()[0]
            if 'Axioms:' in part or nm in broken: fails.append(nm)
    for b in broken:
        if re.match(r'C\d+_',b) and b not in fails: pass
    return {'broken':broken,'failed':fails}
if __name__=='__main__':
    muts=json.load(open(sys.argv[1]))
    for mu in muts:
        try: r=run(mu)
        except Exception as ex: r={'error':repr(ex)}
        if 'error' in r: print('ERR',mu['definition'],r); sys.stdout.flush(); continue
        rec=dict(definition=mu['file']+': '+mu['definition'],edit=mu['old'].strip()+'  ==>  '+mu['new'].strip(),claim_broken=mu['claim'],
                 theorems_failed=r['failed'],first_broken_lemmas=r['broken'][:6],theorems_tightened=mu.get('tightened',[]))
        with open('/verif/seeded/LOG.jsonl','a') as g: g.write(json.dumps(rec)+'\n')
        print('OK ' if r['failed'] else 'SURVIVED',mu['definition'],'->',r['failed'],r['broken'][:4]); sys.stdout.flush()
