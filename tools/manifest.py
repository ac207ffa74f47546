#!/usr/bin/env python3
"""Regenerate MANIFEST.json from the theorem names in rocq/theories/Props_*.v.
Notes per property are in tools/notes.json.  A property with a _partial or _refuted theorem is
reported as partial."""
import glob, json, os, re
root = os.path.dirname(os.path.dirname(os.path.abspath(__file__)))
names = {}
for f in sorted(glob.glob(root + '/rocq/theories/Props_*.v')):
    for m in re.finditer(r'^Theorem\s+((C\d+)_\w+)', open(f).read(), re.M):
        names.setdefault(m.group(2), []).append(m.group(1))
notes = json.load(open(root + '/tools/notes.json'))
claims = []
for line in open(root + '/properties.jsonl'):
    p = json.loads(line)['id']
    ths = names.get(p)
    if not ths:
        continue
    part = any(t.endswith('_partial') or t.endswith('_refuted') for t in ths)
    claims.append({'property': p, 'status': 'partial' if part else 'proved',
                   'theorems': ths, 'note': notes.get(p, '')})
json.dump({'claims': claims}, open(root + '/MANIFEST.json', 'w'), indent=1)
print(len(claims), 'claims;', sum(c['status'] == 'proved' for c in claims), 'proved;',
      [c['property'] for c in claims if not c['note']], 'without note')
