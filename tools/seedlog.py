#!/usr/bin/env python3
"""seedlog.py results.jsonl ... : append the results of tools/mutate.py to seeded/LOG.jsonl (skips ids already logged).
A theorem is listed only if the file that holds it depends on the edited file (mutate.py works by name only)."""
import json,re,os,sys,subprocess
R='/verif/rocq/theories'
req={}
for f in os.listdir(R):
    if f.endswith('.v'):
        t=open(f'{R}/{f}').read()
        req[f]=set(x+'.v' for m in re.findall(r'From Verif Require (?:Import|Export) ([^.]*)\.',t) for x in m.split())
def deps(f,seen=None):
    seen=seen if seen is not None else set()
    for d in req.get(f,()):
        if d not in seen: seen.add(d); deps(d,seen)
    return seen
where={}
for f in req:
    for n in re.findall(r'^\s*(?:Theorem|Lemma|Corollary)\s+(C\d\d_\w+)',open(f'{R}/{f}').read(),re.M): where[n]=f
LOG='/verif/seeded/LOG.jsonl'
old=[json.loads(l) for l in open(LOG)] if os.path.exists(LOG) else []
ids={o['id'] for o in old}
notes=json.load(open('/tmp/seednotes.json')) if os.path.exists('/tmp/seednotes.json') else {}
with open(LOG,'a') as o:
    for p in sys.argv[1:]:
        for l in open(p):
            r=json.loads(l)
            if r['id'] in ids or r.get('error'): continue
            ids.add(r['id'])
            th=[t for t in r['theorems'] if t in where and (r['file'] in deps(where[t]) or where[t]==r['file'])]
            n=notes.get(r['id'],{})
            th=sorted(set(th)|set(n.get('failed',[])))
            d=dict(id=r['id'],definition=f"{r['file']}: {r['definition']}",edit=f"{r['old']}  ==>  {r['new']}",claim=r['claim'],
                   failed=th,broken_proofs=r['lemmas'],tightened=n.get('tightened',[]))
            if n.get('note'): d['note']=n['note']
            if not th: print('NONE',r['id'],r['claim'],r['lemmas'],r['hard'][:1])
            o.write(json.dumps(d)+'\n')
