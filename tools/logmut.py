#!/usr/bin/env python3
"""Appends mutate.py results to seeded/LOG.jsonl. usage: logmut.py OUT [tightened.json: {name: [theorems]}]"""
import json,sys,os
root=os.path.dirname(os.path.dirname(os.path.abspath(__file__)))
t=json.load(open(sys.argv[2])) if len(sys.argv)>2 else {}
with open(root+'/seeded/LOG.jsonl','a') as f:
    for l in open(sys.argv[1]):
        if not l.startswith('{'): continue
        d=json.loads(l)
        if 'error' in d: print('skipped',d['name'],d['error']); continue
        f.write(json.dumps(dict(definition=d['file'][:-2]+': '+d['edit'].split(':')[0] if 'file' in d else d['edit'].split(':')[0],
          edit=d['edit'],old=d.get('old'),new=d.get('new'),claim_broken=d['claim'],broken_proofs=d['broken_proofs'],
          theorems_failed=d['theorems_failed'],theorems_tightened=t.get(d['name'],[]),note=d.get('note','')),ensure_ascii=False)+"\n")
