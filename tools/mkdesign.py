#!/usr/bin/env python3
"""Regenerates the per-property table at the end of /verif/DESIGN.md."""
import json, os, re, glob
root = os.path.dirname(os.path.dirname(os.path.abspath(__file__)))
P = [json.loads(l) for l in open(root + '/properties.jsonl') if l.strip()]
M = {c['property']: c for c in json.load(open(root + '/MANIFEST.json'))['claims']}
where = {}
for f in glob.glob(root + '/rocq/theories/Prop_*.v'):
    for m in re.finditer(r'^Theorem\s+(\w+)', open(f).read(), re.M):
        where[m.group(1)] = os.path.basename(f)
out = ['| id | property | modelled (anchors) | theorems | file |', '|----|----|----|----|----|']
for p in P:
    c = M[p['id']]
    anchors = '; '.join(a.replace('src/library/', '') for a in p['anchors']) if isinstance(p['anchors'], list) else p['anchors']
    files = ', '.join(sorted({where[t] for t in c['theorems']}))
    out.append('| %s | %s | %s | %s | %s |' % (p['id'], p['title'], anchors.replace('|', '/'), ', '.join(t.replace(p['id'] + '_', '') for t in c['theorems']), files))
d = open(root + '/DESIGN.md').read()
d = d[:d.index('<!-- table -->')] + '<!-- table -->\n' + '\n'.join(out) + '\n'
open(root + '/DESIGN.md', 'w').write(d)
