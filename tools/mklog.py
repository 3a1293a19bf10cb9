"""Append results of mutate.py to seeded/LOG.jsonl (ids already logged are skipped).
Usage: mklog.py RESULTS.jsonl"""
import json, sys, os
log = '/verif/seeded/LOG.jsonl'
seen = {json.loads(l)['id'] for l in open(log)} if os.path.exists(log) else set()
with open(log, 'a') as f:
    for l in open(sys.argv[1]):
        d = json.loads(l)
        if d['id'] in seen:
            continue
        f.write(json.dumps({'id': d['id'], 'file': d['file'], 'definition': d['definition'],
            'edit': {'old': d['old'], 'new': d['new']}, 'claim': d['claim'],
            'failed': d.get('failed', []), 'tightened': d.get('tightened', [])}) + '\n')
