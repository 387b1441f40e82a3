#!/usr/bin/env python3
"""Update fields of properties: JSON lines on stdin with id and the fields to change (note goes to notes.json)."""
import json,sys
ps=[json.loads(l) for l in open('/verif/properties.jsonl')]
notes=json.load(open('/verif/tools/notes.json'))
for l in sys.stdin:
    if not l.strip(): continue
    d=json.loads(l)
    p=[p for p in ps if p['id']==d['id']][0]
    for k,v in d.items():
        if k=='note': notes[d['id']]=v
        else: p[k]=v
open('/verif/properties.jsonl','w').write(''.join(json.dumps(p)+'\n' for p in ps))
json.dump(notes,open('/verif/tools/notes.json','w'),indent=1)
