#!/usr/bin/env python3
"""collect.py OUT.jsonl BATCH [TIGHTENED.json]: append seed.py's results to
seeded/LOG.jsonl.  TIGHTENED.json maps the index of a bug to the theorems that
were tightened because of it."""
import json, sys
tight = json.load(open(sys.argv[3])) if len(sys.argv) > 3 else {}
with open('/verif/seeded/LOG.jsonl', 'a') as o:
    for i, l in enumerate(open(sys.argv[1])):
        r = json.loads(l)
        r.pop('seconds', None)
        r['batch'] = sys.argv[2]
        r['tightened'] = tight.get(str(i), [])
        o.write(json.dumps(r) + '\n')
