#!/usr/bin/env python3
"""Append results of tools/seed.py to seeded/LOG.jsonl (one line per edit)."""
import json, sys
out = '/verif/seeded/LOG.jsonl'
seen = set()
try:
    for l in open(out):
        seen.add(json.loads(l).get('id'))
except FileNotFoundError:
    pass
tight = json.load(open(sys.argv[2])) if len(sys.argv) > 2 else {}
with open(out, 'a') as f:
    for l in open(sys.argv[1]):
        d = json.loads(l)
        if d['id'] in seen:
            continue
        failed = d.get('failed_at', [])
        r = {'id': d['id'], 'definition': d['definition'], 'edit': d['edit'], 'claim': d['claim'],
             'failed': failed, 'theorem_files_no_longer_building': d.get('theorem_files_broken', []),
             'result': 'caught' if failed else 'survived', 'tightened': tight.get(d['id'], [])}
        f.write(json.dumps(r) + '\n')
