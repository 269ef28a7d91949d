#!/usr/bin/env python3
"""Table: every function of /repo (non-test) -> model definitions that cite its lines."""
import re,subprocess,glob,os
R='/repo'
funcs=[]
for f in sorted(glob.glob(R+'/**/*.go',recursive=True)):
    if f.endswith('_test.go'): continue
    lines=open(f).read().split('\n')
    rel=f[len(R)+1:]
    for i,l in enumerate(lines,1):
        m=re.match(r'func (?:\((\w+) (\*?\w+)\) )?(\w+)\(',l)
        if m:
            j=i
            while not lines[j-1].startswith('}') and not (j==i and l.rstrip().endswith('}')): j+=1
            funcs.append((rel,i,j,(m[2].strip('*')+'.' if m[2] else '')+m[3]))
cites=[]
for v in sorted(glob.glob('/verif/rocq/theories/*.v')):
    n=os.path.basename(v)[:-2]
    if not (n.startswith('M_') or n in('GoRt','Bytes')): continue
    s=open(v).read()
    for m in re.finditer(r'\(\*\*?(.*?)\*\)\s*((?:Local |Program )?(?:Definition|Fixpoint|Record|Inductive|Notation)\s+(\w+))?',s,re.S):
        c=m[1]; d=m[3]
        for x in re.finditer(r'([\w/]+\.go):(\d+)(?:-(\d+))?((?:, ?\d+(?:-\d+)?)*)',c):
            rng=[(int(x[2]),int(x[3] or x[2]))]
            for y in re.finditer(r'(\d+)(?:-(\d+))?',x[4]): rng.append((int(y[1]),int(y[2] or y[1])))
            for a,b in rng: cites.append((x[1],a,b,n,d))
MAN={'RedeemScript.getPublicKeys':'inlined (the sort) in `M_Redeem.get_redeem_script`','Transaction.AddOutput':'`M_Tx.tx_add_output`',
'Transaction.GetInputs':'the record field `inputs`','Transaction.GetOutputs':'the record field `outputs`','Transaction.GetTxID':'`M_Tx.tx_id`',
'Transaction.ToString':'`M_Tx.tx_to_string`','Transaction.ToBytesWithClearedInputs':'`M_Tx.tx_to_bytes_cleared`',
'Transaction.SignAuto':'`M_Signer.tx_sign_auto`','NewOpReturnParts':'`M_Tx.output_op_return_parts`'}
rows=['| Go function | lines | model |','|---|---|---|']
for rel,i,j,name in funcs:
    ds=[]
    for f,a,b,n,d in cites:
        if f==rel and a<=j and b>=i and d:
            t=f'`{n}.{d}`'
            if t not in ds: ds.append(t)
    m=', '.join(ds[:6]) if ds else MAN[name]
    rows.append(f'| `{rel}` {name} | {i}-{j} | {m} |')
open('/verif/COVERAGE.md','w').write('# Functions of the code and the definitions that model them\n\nGenerated by `tools/coverage.py` from the citations in `rocq/theories/M_*.v`.\n\n'+'\n'.join(rows)+'\n')
