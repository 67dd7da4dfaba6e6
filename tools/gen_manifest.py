#!/usr/bin/env python3
"""Writes MANIFEST.json: every theorem named Cnn_... in a Thm_*.v file belongs to property Cnn."""
import glob, json, os, re
ROOT = os.path.dirname(os.path.dirname(os.path.abspath(__file__)))
props = [json.loads(l)['id'] for l in open(ROOT + '/properties.jsonl')]
notes = json.load(open(ROOT + '/tools/notes.json'))
thms = {}
for f in sorted(glob.glob(ROOT + '/rocq/theories/Thm_*.v')):
    for m in re.finditer(r'^Theorem\s+((C\d+)_\w+)', open(f).read(), re.M):
        thms.setdefault(m.group(2), []).append(m.group(1))
claims = []
for p in props:
    ts = thms.get(p, [])
    n = notes.get(p, {})
    if not ts:
        continue
    status = n.get('status') or ('partial' if any(t.endswith('_partial') for t in ts) else 'proved')
    claims.append({'property': p, 'status': status, 'theorems': ts, 'note': n.get('note', '')})
json.dump({'claims': claims}, open(ROOT + '/MANIFEST.json', 'w'), indent=1)
print(len(claims), 'claims', sum(len(c['theorems']) for c in claims), 'theorems; missing:', [p for p in props if p not in thms])
