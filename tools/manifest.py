#!/usr/bin/env python3
"""Regenerate MANIFEST.json from the theorem names in rocq/theories/P_*.v and notes.json."""
import re, json, glob, os
root=os.path.dirname(os.path.dirname(os.path.abspath(__file__)))
props=[json.loads(l)['id'] for l in open(root+'/properties.jsonl')]
notes=json.load(open(root+'/tools/notes.json'))
th={p:[] for p in props}
for f in sorted(glob.glob(root+'/rocq/theories/P_*.v')):
    for m in re.finditer(r'^(?:Theorem|Lemma|Corollary)\s+((C\d+)_\w+)',open(f).read(),re.M):
        th[m.group(2)].append(m.group(1))
claims=[]
for p in props:
    if not th[p]: continue
    st='partial' if any(t.endswith(('_partial','_refuted')) for t in th[p]) else 'proved'
    n=notes.get(p,'')
    if isinstance(n,dict): st=n.get('status',st); n=n['note']
    claims.append(dict(property=p,status=st,theorems=th[p],note=n))
json.dump({"claims":claims},open(root+'/MANIFEST.json','w'),indent=1)
print({c['property']:c['status'] for c in claims})
print("missing:",[p for p in props if not th[p]])
