#!/usr/bin/env python3
"""Seeded-bug runner.  usage: mutate.py specs.json [id ...]
Each spec: {"id","file","definition","old","new","claim"[,"tightened"]}.
Copies /verif/rocq (with its compiled files) to a scratch directory, applies the
edit, rebuilds, and each time a proof breaks replaces it by Admitted IN THE SCRATCH
COPY so that the rest can be checked; reports the lemmas that broke and the
Prop_* theorems that broke or rest on a broken lemma."""
import json, os, re, subprocess, sys, shutil
BASE=os.environ.get('MUTBASE','/verif/rocq'); W=os.environ.get('MUT','/tmp/mut')
J=os.environ.get('MUTJ','3')
HEAD=re.compile(r'^\s*(?:Local |Global )?(Theorem|Lemma|Corollary|Example|Fact|Remark|Proposition)\s+([A-Za-z0-9_\']+)',re.M)
def sync():
    shutil.rmtree(W,ignore_errors=True); subprocess.run(['cp','-a',BASE,W],check=True)
def blocks(txt):
    ms=list(HEAD.finditer(txt)); out=[]
    for m in ms:
        e=re.compile(r'\b(Qed|Defined|Admitted)\.').search(txt,m.end())
        if e: out.append((m.group(2),m.start(),e.end()))
    return out
def depgraph():
    g={}
    names={}
    for f in sorted(os.listdir(W+'/theories')):
        if f.endswith('.v'):
            t=open(f'{W}/theories/{f}').read()
            for n,s,e in blocks(t): names.setdefault(n,t[s:e])
    # Ltac / definitions may hide uses; good enough as they name lemmas too
    for n,t in names.items():
        g[n]=set(x for x in re.findall(r"[A-Za-z_][A-Za-z0-9_']*",t) if x in names and x!=n)
    return g
def run(sp):
    sync()
    p=f'{W}/theories/{sp["file"]}'
    t=open(p).read()
    if t.count(sp['old'])!=1: return dict(sp,error=f"old text occurs {t.count(sp['old'])} times")
    g=depgraph()
    open(p,'w').write(t.replace(sp['old'],sp['new']))
    failed=[]; hard=[]
    for it in range(60):
        r=subprocess.run(f'cd {W} && make -k -j{J} TIMECMD="timeout 900"',shell=True,capture_output=True,text=True)
        out=r.stdout+r.stderr
        errs=[]
        ls=out.split('\n')
        for i,l in enumerate(ls):
            m=re.match(r'File "\./(theories/[^"]+)", line (\d+), characters',l)
            if m and any(x.startswith('Error') for x in ls[i+1:i+3]): errs.append((m.group(1),int(m.group(2)),' '.join(ls[i+1:i+4])))
        if not errs:
            if r.returncode!=0: hard.append(out[-600:])
            break
        prog=False
        for f,ln,msg in errs:
            q=f'{W}/{f}'; tx=open(q).read(); lines=tx.split('\n')
            pos=sum(len(x)+1 for x in lines[:ln-1])
            for n,s,e in blocks(tx):
                if s<=pos<=e or (pos<s<pos+len(lines[ln-1])+1):
                    b=tx[s:e]
                    k=re.search(r'\bProof\b',b)
                    if not k or b.endswith('Admitted.'):
                        # statement itself ill-typed or other
                        hard.append(f'{f}:{n}: {msg}'); continue
                    # keep bytes count irrelevant
                    if ln<=tx[:s+k.start()].count('\n'):
                        hard.append(f'{f}:{n}: statement: {msg}'); continue
                    tx2=tx[:s]+b[:k.start()]+'Admitted.'+tx[e:]
                    open(q,'w').write(tx2); failed.append((f.split('/')[-1],n)); prog=True
                    break
            else: hard.append(f'{f}:{ln}: {msg}')
        if not prog: break
    bad=set(n for _,n in failed)
    ch=True
    while ch:
        ch=False
        for n,ds in g.items():
            if n not in bad and ds & bad: bad.add(n); ch=True
    thms=sorted(n for n in bad if re.match(r'C\d\d_',n))
    return dict(sp,lemmas=[f'{a}:{b}' for a,b in failed],theorems=thms,hard=hard)
if __name__=='__main__':
    sps=json.load(open(sys.argv[1])); ids=sys.argv[2:]
    res=os.environ.get('MUTOUT','/tmp/mut_results.jsonl')
    for sp in sps:
        if ids and sp['id'] not in ids: continue
        r=run(sp)
        with open(res,'a') as h: h.write(json.dumps(r)+'\n')
        print(sp['id'],'LEMMAS',r.get('lemmas'),'THMS',r.get('theorems'),'HARD',r.get('hard'),r.get('error'),flush=True)
