#!/usr/bin/env python3
"""Regenerates MANIFEST.json from properties.jsonl and the theorem names Cnn_* in rocq/theories/Prop*.v.
   Status is derived from the names: any _refuted or _partial theorem makes the property partial."""
import json,re,glob,os
root=os.path.dirname(os.path.dirname(os.path.abspath(__file__)))
notes=json.load(open(os.path.join(root,'tools','notes.json')))
thms={}
for f in sorted(glob.glob(root+'/rocq/theories/Prop*.v')):
    for m in re.finditer(r'^Theorem (C(\d\d+)_\w+)',open(f).read(),re.M):
        thms.setdefault('C'+m.group(2),[]).append(m.group(1))
claims=[]
for line in open(root+'/properties.jsonl'):
    i=json.loads(line)['id']; t=thms.get(i,[])
    if not t: continue
    st='partial' if any(x.endswith('_partial') or x.endswith('_refuted') for x in t) else 'proved'
    n=notes.get(i,{})
    if isinstance(n,str): n={'note':n}
    claims.append(dict(property=i,status=n.get('status',st),theorems=t,note=n.get('note','')))
json.dump({'claims':claims},open(root+'/MANIFEST.json','w'),indent=1,ensure_ascii=False)
print(len(claims),'claims',sum(len(c['theorems']) for c in claims),'theorems')
missing=[json.loads(l)['id'] for l in open(root+'/properties.jsonl') if json.loads(l)['id'] not in thms]
print('no theorems yet:',missing)
