#!/usr/bin/env python3
"""addprop.py: append a property from a JSON object on stdin (keys id,title,statement,quantifier,why_tests_cant,anchors,design)."""
import json,sys,os
root=os.path.dirname(os.path.dirname(os.path.abspath(__file__)))
for d in json.load(sys.stdin):
    des=d.pop('design')
    with open(root+'/properties.jsonl','a') as f: f.write(json.dumps(d)+'\n')
    p=root+'/DESIGN.md'; s=open(p).read()
    lines=s.split('\n')
    last=max(i for i,l in enumerate(lines) if l.startswith('- **C'))
    lines.insert(last+1,f"- **{d['id']} {d['title']}** — {des}")
    open(p,'w').write('\n'.join(lines))
