#!/usr/bin/env python3
"""Convert results of the mutation harness (/tmp/mut/results.jsonl) to seeded/LOG.jsonl."""
import json,os
seen=set(); out=open('/verif/seeded/LOG.jsonl','a')
if os.path.exists('/verif/seeded/LOG.jsonl'):
    seen={json.loads(l)['id'] for l in open('/verif/seeded/LOG.jsonl')}
for l in open('/tmp/mut/results.jsonl'):
    d=json.loads(l)
    if d['id'] in seen: continue
    seen.add(d['id'])
    out.write(json.dumps({'id':d['id'],'definition':d['file']+': '+d['defn'],'edit':d['old']+'  ==>  '+d['new'],
      'claim_broken':d['claim'],'theorems_failed':d['failed'],'theorems_tightened':d.get('tightened',[])})+'\n')
