"""Regenerate MANIFEST.json from the Theorem names in rocq/theories/Props_*.v.

Notes and statuses other than "proved" are kept in tools/notes.json.
"""
import glob
import json
import os
import re

here = os.path.dirname(os.path.dirname(os.path.abspath(__file__)))
notes = json.load(open(os.path.join(here, 'tools', 'notes.json')))
props = [json.loads(l) for l in open(os.path.join(here, 'properties.jsonl'))]
thms = {}
for f in sorted(glob.glob(os.path.join(here, 'rocq/theories/Props_*.v'))):
    for m in re.finditer(r'^Theorem\s+((C\d+)_\w+)', open(f).read(), re.M):
        thms.setdefault(m.group(2), []).append(m.group(1))
claims = []
for p in props:
    i = p['id']
    n = notes.get(i, {})
    if i not in thms and 'status' not in n:
        continue
    names = thms.get(i, [])
    status = n.get('status', 'partial' if any(x.endswith('_partial') for x in names) else 'proved')
    note = n.get('note', 'finding' if '(finding)' in p['title'] else '')
    claims.append(dict(property=i, status=status, theorems=names, note=note))
missing = set(thms) - {p['id'] for p in props}
assert not missing, missing
with open(os.path.join(here, 'MANIFEST.json'), 'w') as f:
    f.write('{"claims": [\n' + ',\n'.join(' ' + json.dumps(c) for c in claims) + '\n]}\n')
print(len(claims), 'claims of', len(props), 'properties;', sum(len(c['theorems']) for c in claims), 'theorems')
