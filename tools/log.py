#!/usr/bin/env python3
# builds seeded/LOG.jsonl from the mutation results
import json,os
M='/tmp/mut/'
def load(p): return [json.loads(l) for l in open(p)] if os.path.exists(p) else []
muts={}
for f in os.listdir(M):
    if f.endswith('.json') and not f.startswith('deps') and f!='tight.json':
        for m in json.load(open(M+f)): muts[m['id']]=m
tight=json.load(open(M+'tight.json')) if os.path.exists(M+'tight.json') else {}
out=[];seen=set()
for p in ['o.jsonl','oall_first.jsonl','oall.jsonl','onew.jsonl','op.jsonl','oq.jsonl','ot.jsonl','os.jsonl','ou.jsonl','ov.jsonl','ow.jsonl','ox.jsonl','oy.jsonl','oz.jsonl','oaa.jsonl','obb.jsonl','odd.jsonl','oee.jsonl']:
    for r in load(M+p):
        m=muts.get(r['id'],{})
        if r.get('error'): continue
        fail=sorted(set(r['failed'])|set(r.get('broken_theorems',[])))
        if not fail and r['id']=='m024': continue
        key=(r['id'],tuple(fail))
        if key in seen: continue
        seen.add(key)
        first = p=='oall_first.jsonl' and r['id'] in tight
        edits=m.get('edits') or [[m.get('old'),m.get('new')]]
        e=dict(id=r['id'],definition=f"{r['file']}.v: {r['defn']}",edit=r['desc'],diff=[{'old':a,'new':b} for a,b in edits],claim_broken=r['claims'],theorems_failed=fail,examples_failed=r.get('examples',[]),theorems_tightened=tight[r['id']]['theorems'] if r['id'] in tight and r['missing'] else [])
        if r['id'] in tight: e['note']=tight[r['id']]['note']
        out.append(e)
open('/verif/seeded/LOG.jsonl','w').write(''.join(json.dumps(e)+'\n' for e in out))
print(len(out))
