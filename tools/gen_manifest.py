#!/usr/bin/env python3
"""Write MANIFEST.json: the theorems of each property are those of the Properties*.v files whose
name starts with the property's id.  A property with a _partial or _refuted theorem is partial."""
import re, json, glob
extra = {'C22': ['groups_unique'], 'C23': ['swap_meaning'], 'C24': ['list_set_meaning']}
notes = json.load(open('/verif/tools/notes.json'))
thms = []
for f in sorted(glob.glob('/verif/rocq/theories/Properties*.v')):
    thms += re.findall(r'^Theorem (\w+)', open(f).read(), re.M)
claims = []
for l in open('/verif/properties.jsonl'):
    p = json.loads(l)['id']
    ts = [t for t in thms if t.startswith(p.lower() + '_')] + extra.get(p, [])
    n = notes.get(p, '')
    if not ts:
        if p in notes: claims.append({'property': p, 'status': 'not_applicable', 'theorems': [], 'note': n})
        else: print('no theorem for', p)
        continue
    st = 'partial' if any(t.endswith(('_partial', '_refuted')) for t in ts) else 'proved'
    if not n: print('no note for', p)
    claims.append({'property': p, 'status': st, 'theorems': ts, 'note': n})
json.dump({'claims': claims}, open('/verif/MANIFEST.json', 'w'), indent=1)
