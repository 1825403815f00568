#!/usr/bin/env python3
"""Writes MANIFEST.json from theories/Props/Cxx.v and tools/notes.json.

Every theorem of Props/Cxx.v is listed. A property is "partial" when one of its
theorems ends in _partial or _refuted, or when notes.json says so."""
import json, os, re
root = os.path.dirname(os.path.dirname(os.path.abspath(__file__)))
notes = json.load(open(os.path.join(root, 'tools/notes.json')))
claims = []
for line in open(os.path.join(root, 'properties.jsonl')):
    if not line.strip():
        continue
    pid = json.loads(line)['id']
    path = os.path.join(root, 'rocq/theories/Props/%s.v' % pid)
    thms = re.findall(r'^Theorem (\w+)', open(path).read(), re.M) if os.path.exists(path) else []
    n = notes.get(pid, {})
    note = n.get('note', '')
    partial = n.get('partial', False) or not thms or any(t.endswith(('_partial', '_refuted')) for t in thms)
    if not thms:
        note = note or 'Model not written yet; nothing proved.'
    claims.append({'property': pid, 'status': 'partial' if partial else 'proved',
                   'theorems': thms, 'note': note})
with open(os.path.join(root, 'MANIFEST.json'), 'w') as f:
    json.dump({'claims': claims}, f, indent=1)
    f.write('\n')
print({s: sum(c['status'] == s for c in claims) for s in ('proved', 'partial')},
      [c['property'] for c in claims if not c['note']])
