#!/usr/bin/env python3
"""Regenerates MANIFEST.json: collects Theorem Cxx_... names from rocq/theories/Prop_*.v.
status: 'partial' if any theorem of the property ends in _partial or _refuted, else 'proved'.
Notes come from tools/notes.json."""
import re,json,glob,os
root=os.path.dirname(os.path.dirname(os.path.abspath(__file__)))
notes=json.load(open(root+'/tools/notes.json'))
ths={}
for f in sorted(glob.glob(root+'/rocq/theories/Prop_*.v')):
    for m in re.finditer(r'^Theorem\s+(C\d+\w*)',open(f).read(),re.M):
        ths.setdefault(m.group(1).split('_')[0],[]).append(m.group(1))
claims=[]
for line in open(root+'/properties.jsonl'):
    p=json.loads(line); i=p['id']; t=ths.get(i,[])
    if not t: 
        print('no theorems for',i); continue
    part=any(x.endswith(('_partial','_refuted')) for x in t)
    claims.append({'property':i,'status':'partial' if part else 'proved','theorems':t,'note':notes.get(i,'')})
json.dump({'claims':claims},open(root+'/MANIFEST.json','w'),indent=1)
ids={json.loads(l)['id'] for l in open(root+'/properties.jsonl')}
print('claims',len(claims),'theorems',sum(len(c['theorems']) for c in claims),'orphans',set(ths)-ids)
