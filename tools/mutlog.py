#!/usr/bin/env python3
"""Turn mutation results (tools/mutate.py) into seeded/LOG.jsonl, one line per attempt.  Usage: mutlog.py RESULTS.jsonl TIGHTENED.json > LOG.jsonl"""
import json,sys
tight=json.load(open(sys.argv[2])) if len(sys.argv)>2 else {}
for n,l in enumerate(open(sys.argv[1])):
    r=json.loads(l)
    if r.get('error'): continue
    t=tight.get(r['id'],{})
    o=dict(id=r['id'],definition=f"{r['file']}:{r['definition']}",edit={"from":r['old'],"to":r['new'],"what":r['desc']},
           claim_broken=r['claims'] if r['claims'] else "any",theorems_failed=r['failed'],
           claims_not_caught=r['survived'],lemmas_broken=r['broken_lemmas'],theorems_tightened=t.get('tightened',[]) if (r['survived'] or not r['failed']) else [])
    if r.get('unbuildable'): o['does_not_build']=r['unbuildable']
    if t.get('note') and (r['survived'] or not r['failed']): o['note']=t['note']
    print(json.dumps(o))
