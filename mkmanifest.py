#!/usr/bin/env python3
"""Generates MANIFEST.json from claims.txt-like table below and checks that the theorems exist in rocq/theories."""
import json,re,glob,os
here=os.path.dirname(os.path.abspath(__file__))
names=set()
for f in glob.glob(here+'/rocq/theories/P_*.v'):
    names|=set(re.findall(r'^(?:Theorem|Lemma|Corollary) (\w+)',open(f).read(),re.M))
props=[json.loads(l)['id'] for l in open(here+'/properties.jsonl')]
status={}
for l in open(here+'/claims.tsv'):
    l=l.rstrip('\n')
    if not l or l.startswith('#'): continue
    i,st,note=l.split('\t',2); status[i]=(st,note)
out=[]
for p in props:
    th=sorted(n for n in names if n.startswith(p+'_'))
    if p in status:
        st,note=status[p]
        out.append(dict(property=p,status=st,theorems=th,note=note))
    elif th: print('no status for',p)
json.dump(dict(claims=out),open(here+'/MANIFEST.json','w'),indent=1)
print(len(out),'claims;',sum(len(c['theorems']) for c in out),'theorems; missing:',[p for p in props if p not in status])
