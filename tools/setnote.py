#!/usr/bin/env python3
"""setnote.py Cxx status note [also ...]: record the status of a property in notes.json."""
import json, os, sys
p = os.path.join(os.path.dirname(os.path.abspath(__file__)), 'notes.json')
d = json.load(open(p))
c, st, note, also = sys.argv[1], sys.argv[2], sys.argv[3], sys.argv[4:]
d[c] = {'status': st, **({'also': also} if also else {}), 'note': note}
json.dump(dict(sorted(d.items())), open(p, 'w'), indent=1)
