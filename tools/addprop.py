#!/usr/bin/env python3
"""usage: addprop.py < lines of JSON: {"id","title","statement","quantifier","why_tests_cant","anchors","note"}; appends to properties.jsonl and notes.json"""
import json,sys,os
root=os.path.dirname(os.path.dirname(os.path.abspath(__file__)))
have={json.loads(l)['id'] for l in open(root+'/properties.jsonl')}
notes=json.load(open(root+'/tools/notes.json'))
with open(root+'/properties.jsonl','a') as f:
    for l in sys.stdin:
        if not l.strip(): continue
        d=json.loads(l); n=d.pop('note',None)
        if n is not None: notes[d['id']]=n
        if 'title' in d and d['id'] not in have: f.write(json.dumps(d,ensure_ascii=False)+"\n")
json.dump(notes,open(root+'/tools/notes.json','w'),indent=0,ensure_ascii=False)
