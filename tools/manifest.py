#!/usr/bin/env python3
"""Writes MANIFEST.json: theorems named Cnn_* in rocq/theories/Props*.v, with
the status and note of each property from tools/status.json."""
import glob, json, re, os
root = os.path.dirname(os.path.dirname(os.path.abspath(__file__)))
thms = {}
for f in sorted(glob.glob(root + '/rocq/theories/Props*.v')):
    for m in re.finditer(r'^Theorem ((C\d+)_\w+)', open(f).read(), re.M):
        thms.setdefault(m.group(2), []).append(m.group(1))
status = json.load(open(root + '/tools/status.json'))
props = [json.loads(l)['id'] for l in open(root + '/properties.jsonl')]
claims = []
for p in props:
    st, note = status.get(p, ['', ''])
    t = thms.get(p, [])
    if not st:
        if t: print('no status for', p, t)
        continue
    if st != 'not_applicable' and not t:
        print('no theorem for', p); continue
    claims.append({'property': p, 'status': st, 'theorems': t, 'note': note})
json.dump({'claims': claims}, open(root + '/MANIFEST.json', 'w'), indent=1)
print(len(claims), 'claims,', sum(len(c['theorems']) for c in claims), 'theorems')
missing = [p for p in props if p not in [c['property'] for c in claims]]
print('open:', ' '.join(missing))
