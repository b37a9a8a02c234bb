#!/usr/bin/env python3
"""Writes MANIFEST.json from the theorem names in rocq/theories/Prop*.v."""
import glob, json, os, re
root = os.path.dirname(os.path.dirname(os.path.abspath(__file__)))
names = {}
for f in sorted(glob.glob(root + '/rocq/theories/Prop*.v')):
    for m in re.finditer(r'^Theorem\s+((C\d\d)_\w+)', open(f).read(), re.M):
        names.setdefault(m.group(2), []).append(m.group(1))
notes = json.load(open(root + '/tools/notes.json'))
claims = []
for line in open(root + '/properties.jsonl'):
    p = json.loads(line)['id']
    th = names.get(p, [])
    n = notes.get(p, {})
    st = n.get('status') or ('partial' if not th or any(t.endswith('_partial') for t in th) else 'proved')
    claims.append({'property': p, 'status': st, 'theorems': th,
                   'note': n.get('note', '') if th else n.get('note', 'not yet modelled')})
json.dump({'claims': claims}, open(root + '/MANIFEST.json', 'w'), indent=1)
print(sum(c['status'] == 'proved' for c in claims), 'proved of', len(claims))
