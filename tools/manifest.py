#!/usr/bin/env python3
"""Rebuild MANIFEST.json: statuses and notes are kept here, theorem names are collected from the
Properties*.v files (every theorem whose name starts with the property id)."""
import json, re, glob
notes = json.load(open('/verif/tools/claims.json'))
thms = {}
for f in sorted(glob.glob('/verif/rocq/theories/Properties*.v')):
    for n in re.findall(r'^Theorem (\w+)', open(f).read(), re.M):
        m = re.match(r'(C\d\d)_', n)
        if m: thms.setdefault(m.group(1), []).append(n)
for k in thms:
    assert k in notes, k
claims = []
for k in sorted(notes):
    st, note = notes[k][:2]
    extra = notes[k][2] if len(notes[k]) > 2 else []
    claims.append({"property": k, "status": st, "theorems": thms.get(k, []) + extra, "note": note})
with open('/verif/MANIFEST.json', 'w') as o:
    o.write('{"claims": [\n' + ',\n'.join(' ' + json.dumps(c) for c in claims) + '\n]}\n')
ids = [json.loads(l)['id'] for l in open('/verif/properties.jsonl')]
print(len(claims), 'claims; not claimed:', [i for i in ids if i not in notes])
