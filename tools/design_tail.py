#!/usr/bin/env python3
"""Regenerate the generated part of DESIGN.md (after the marker line): assumptions of every
theorem and the list of refuted statements, from the P_*.v files and tools/notes.json."""
import glob, json, os, re
root = os.path.dirname(os.path.dirname(os.path.abspath(__file__)))
mark = '<!-- generated by tools/design_tail.py; do not edit below -->'
text = open(root + '/DESIGN.md').read().split(mark)[0]
out = [mark, '', '### Theorems and their assumptions', '',
       'Every theorem below is followed by `Print Assumptions` in its file and is',
       '"Closed under the global context" (no axioms at all), unless marked.', '',
       '| file | theorems |', '|------|----------|']
axioms = json.load(open(root + '/tools/axioms.json')) if os.path.exists(root + '/tools/axioms.json') else {}
ref = []
for f in sorted(glob.glob(root + '/rocq/theories/P_*.v')):
    src = open(f).read()
    names = re.findall(r'^\s*Theorem\s+(C\d+_\w+)', src, re.M)
    out.append('| %s | %s |' % (os.path.basename(f), ', '.join(n + (' (%s)' % axioms[n] if n in axioms else '') for n in names)))
    for m in re.finditer(r'\(\*\*((?:(?!\*\)).)*?)\*\)\s*Theorem\s+(C\d+_\w*refuted)\b', src, re.S):
        ref.append((m.group(2), ' '.join(m.group(1).split())))
    for n in names:
        if n.endswith('_refuted') and n not in [r[0] for r in ref]:
            ref.append((n, ''))
ref.sort()
out += ['', '### Statements that the model refutes (findings about the code)', '']
for n, c in ref:
    out.append('* `%s`: %s' % (n, c) if c else '* `%s`' % n)
out += ['', '### Status and limits per property', '']
titles = {}
for l in open(root + '/properties.jsonl'):
    o = json.loads(l); titles[o['id']] = o['title']
for c in sorted(json.load(open(root + '/MANIFEST.json'))['claims'], key=lambda c: c['property']):
    out.append('* %s %s: %s. %s' % (c['property'], titles[c['property']], c['status'], c['note']))
open(root + '/DESIGN.md', 'w').write(text + '\n'.join(out) + '\n')
