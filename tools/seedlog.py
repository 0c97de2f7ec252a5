#!/usr/bin/env python3
"""Collect the results of tools/seed.py into seeded/LOG.jsonl.  usage: seedlog.py out1.jsonl ..."""
import json,sys
tight=json.load(open('/verif/seeded/tightened.json')) if __import__('os').path.exists('/verif/seeded/tightened.json') else {}
old={}
try:
    for l in open('/verif/seeded/LOG.jsonl'):
        d=json.loads(l); old[d['id']]=d
except FileNotFoundError: pass
for f in sys.argv[1:]:
    for l in open(f):
        d=json.loads(l)
        if 'definition' not in d: continue
        t=tight.get(d['id'],{})
        e=dict(id=d['id'],definition=d['definition'],edit=d['edit'],claim=d['claim_broken'],theorems_failed=d['theorems_failed'],
               first_failures=d['first_failures'],examples_failed=d['examples_failed'],theorems_tightened=t.get('tightened',[]))
        note=t.get('note') or (d['error'] and ('build not finished: '+d['error']))
        if note: e['note']=note
        old[d['id']]=e
open('/verif/seeded/LOG.jsonl','w').write(''.join(json.dumps(old[k])+'\n' for k in sorted(old)))
print(len(old))
