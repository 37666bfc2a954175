#!/usr/bin/env python3
"""Regenerate MANIFEST.json from the theorem names in rocq/theories/P_*.v.
Status and notes per property are in tools/notes.json."""
import glob, json, os, re
root = os.path.dirname(os.path.dirname(os.path.abspath(__file__)))
thms = {}
for f in sorted(glob.glob(root + '/rocq/theories/P_*.v')):
    for n in re.findall(r'^\s*Theorem\s+(C\d+_\w+)', open(f).read(), re.M):
        thms.setdefault(n.split('_')[0], []).append(n)
notes = json.load(open(root + '/tools/notes.json'))
claims = []
for l in open(root + '/properties.jsonl'):
    c = json.loads(l)['id']
    n = notes.get(c, {})
    t = thms.get(c, []) + n.get('also', [])
    st = n.get('status', 'proved' if t else 'partial')
    if not t and st != 'not_applicable':
        continue
    claims.append({'property': c, 'status': st, 'theorems': t, 'note': n.get('note', '')})
json.dump({'claims': claims}, open(root + '/MANIFEST.json', 'w'), indent=1)
print({s: sum(1 for c in claims if c['status'] == s) for s in ('proved', 'partial', 'not_applicable')})
