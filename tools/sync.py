#!/usr/bin/env python3
"""Regenerate rocq/_CoqProject (file list) and MANIFEST.json from the theory files.
Theorems named Cnn_* belong to property Cnn. A property with a *_refuted or *_partial theorem is
`partial`, otherwise `proved`. Notes come from tools/notes.json."""
import json, re, glob, os
root = os.path.dirname(os.path.dirname(os.path.abspath(__file__)))
th = sorted(glob.glob(root + '/rocq/theories/*.v'))
with open(root + '/rocq/_CoqProject', 'w') as f:
    f.write('-Q theories Verif\n')
    for t in th:
        f.write('theories/' + os.path.basename(t) + '\n')
notes = json.load(open(root + '/tools/notes.json'))
byp = {}
for t in th:
    if not t.endswith('Properties.v'):
        continue
    s = open(t).read()
    for m in re.finditer(r'^Theorem\s+(C\d\d\d?)_(\w+)', s, re.M):
        byp.setdefault(m.group(1), []).append(m.group(1) + '_' + m.group(2))
claims = []
for line in open(root + '/properties.jsonl'):
    p = json.loads(line)
    i = p['id']
    if i not in byp:
        if i in notes and notes[i].get('status'):
            claims.append(dict(property=i, status=notes[i]['status'], theorems=[], note=notes[i]['note']))
        else:
            print('no theorem for', i)
        continue
    n = notes.get(i, {})
    st = 'partial' if any(x.endswith('_refuted') or x.endswith('_partial') for x in byp[i]) else 'proved'
    st = n.get('status', st)
    if not n.get('note'):
        print('no note for', i)
    claims.append(dict(property=i, status=st, theorems=byp[i], note=n.get('note', '')))
json.dump(dict(claims=claims), open(root + '/MANIFEST.json', 'w'), indent=1)
print({s: sum(c['status'] == s for c in claims) for s in ('proved', 'partial', 'not_applicable')})
