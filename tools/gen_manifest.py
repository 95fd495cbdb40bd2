#!/usr/bin/env python3
"""Write MANIFEST.json: theorem names Cxx_* are taken from theories/Props*.v, status and notes from here."""
import glob
import json
import os
import re

ROOT = os.path.dirname(os.path.dirname(os.path.abspath(__file__)))
# property -> (status, note); properties not listed are "proved" when they have theorems
NOTES = json.load(open(os.path.join(ROOT, 'tools', 'notes.json')))

names = {}
for path in sorted(glob.glob(os.path.join(ROOT, 'rocq', 'theories', 'Props*.v'))):
    for line in open(path):
        m = re.match(r'(?:Theorem|Lemma|Corollary)\s+((C\d+)_\w+)', line)
        if m:
            names.setdefault(m.group(2), []).append(m.group(1))

claims = []
for line in open(os.path.join(ROOT, 'properties.jsonl')):
    pid = json.loads(line)['id']
    if pid not in names:
        continue
    status, note = NOTES.get(pid, ['proved', ''])
    bad = [n for n in names[pid] if n.endswith(('_refuted', '_partial'))]
    assert status != 'proved' or not bad, (pid, bad)
    claims.append({'property': pid, 'status': status, 'theorems': names[pid], 'note': note})
with open(os.path.join(ROOT, 'MANIFEST.json'), 'w') as f:
    json.dump({'claims': claims}, f, indent=1)
    f.write('\n')
print(len(claims), 'claims,', sum(len(c['theorems']) for c in claims), 'theorems')
