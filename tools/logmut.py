#!/usr/bin/env python3
"""logmut.py OUT.jsonl [TIGHTENED.json]: append the results of mutate.py to seeded/LOG.jsonl.
TIGHTENED maps the text of an edit to {"tightened": [...], "note": "..."}."""
import json, os, sys
root = os.path.dirname(os.path.dirname(os.path.abspath(__file__)))
extra = json.load(open(sys.argv[2])) if len(sys.argv) > 2 else {}
with open(root + '/seeded/LOG.jsonl', 'a') as f:
    for l in open(sys.argv[1]):
        r = json.loads(l)
        x = extra.get(r['edit'], {})
        o = {'definition': r['file'] + '.' + r['definition'], 'edit': r['edit'],
             'claim_broken': r['claim'], 'theorems_failed': r['failed'],
             'lemmas_failed': r['broken'], 'theorems_tightened': x.get('tightened', [])}
        if 'note' in x: o['note'] = x['note']
        f.write(json.dumps(o) + '\n')
