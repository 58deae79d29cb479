#!/usr/bin/env python3
"""Rebuild MANIFEST.json from the theorem names Cnn_* in rocq/theories/Properties."""
import glob, json, re, os
root = os.path.dirname(os.path.dirname(os.path.abspath(__file__)))
notes = json.load(open(os.path.join(root, 'tools', 'notes.json')))
thms = {}
for f in sorted(glob.glob(root + '/rocq/theories/Properties/*.v')):
    for m in re.finditer(r'^\s*(?:Theorem|Lemma|Corollary)\s+(C(\d\d\d?)_\w+)', open(f).read(), re.M):
        thms.setdefault('C' + m.group(2), []).append(m.group(1))
claims = []
for line in open(root + '/properties.jsonl'):
    p = json.loads(line)['id']
    n = notes.get(p, {})
    t = thms.pop(p, [])
    st = n.get('status', 'proved' if t else 'partial')
    claims.append({'property': p, 'status': st, 'theorems': t, 'note': n.get('note', '')})
if thms: print('theorems for unknown properties:', list(thms))
json.dump({'claims': claims}, open(root + '/MANIFEST.json', 'w'), indent=1)
print(sum(1 for c in claims if c['theorems']), 'properties with theorems of', len(claims))
print('without:', [c['property'] for c in claims if not c['theorems']])
