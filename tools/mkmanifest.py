#!/usr/bin/env python3
"""Regenerate MANIFEST.json: collects Theorem names Cxx_* from rocq/theories
and combines them with the status/notes below."""
import re,glob,json,os
root=os.path.dirname(os.path.dirname(os.path.abspath(__file__)))
th={}
for f in sorted(glob.glob(root+'/rocq/theories/*.v')):
    for m in re.finditer(r'^Theorem (C(\d\d)_\w+)',open(f).read(),re.M):
        th.setdefault('C'+m.group(2),[]).append(m.group(1))
notes=json.load(open(root+'/tools/notes.json'))
props=[json.loads(l)['id'] for l in open(root+'/properties.jsonl')]
claims=[]
for p in props:
    st,note=notes.get(p,("",""))
    t=th.get(p,[])
    if not t and st!="not_applicable": continue
    if not st: st="partial" if any('_partial' in x or '_refuted' in x for x in t) else "proved"
    claims.append({"property":p,"status":st,"theorems":t,"note":note})
json.dump({"claims":claims},open(root+'/MANIFEST.json','w'),indent=1)
print(len(claims),"claims; missing:",[p for p in props if p not in [c['property'] for c in claims]])
