#!/usr/bin/env python3
"""Regenerates MANIFEST.json from the theorem names in rocq/theories/T_*.v and tools/notes.json."""
import json,re,glob,os
root=os.path.dirname(os.path.dirname(os.path.abspath(__file__)))
th={}
for f in sorted(glob.glob(root+'/rocq/theories/T_*.v')):
    for m in re.finditer(r'^Theorem ((C\d\d+)_\w+)',open(f).read(),re.M):
        th.setdefault(m.group(2),[]).append(m.group(1))
notes=json.load(open(root+'/tools/notes.json'))
claims=[]
for l in open(root+'/properties.jsonl'):
    p=json.loads(l)['id']
    if p not in th: continue
    n=notes.get(p,{})
    st=n.get('status','partial' if any(t.endswith('_partial') for t in th[p]) else 'proved')
    claims.append({'property':p,'status':st,'theorems':th[p],'note':n.get('note','')})
json.dump({'claims':claims},open(root+'/MANIFEST.json','w'),indent=1)
print(len(claims),'claims',sum(len(c['theorems']) for c in claims),'theorems')
