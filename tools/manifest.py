#!/usr/bin/env python3
"""Regenerates MANIFEST.json from the theorem names in rocq/theories/Prop*.v and tools/notes.json."""
import json, re, glob, os
root = os.path.dirname(os.path.dirname(os.path.abspath(__file__)))
th = {}
for f in sorted(glob.glob(root + '/rocq/theories/Prop*.v')):
    for m in re.finditer(r'^Theorem\s+((C\d+)_\w+)', open(f).read(), re.M):
        th.setdefault(m.group(2), []).append(m.group(1))
notes = json.load(open(root + '/tools/notes.json'))
ids = [json.loads(l)['id'] for l in open(root + '/properties.jsonl') if l.strip()]
claims = []
for i in ids:
    if i in notes:
        st, note = notes[i]
        claims.append({"property": i, "status": st, "theorems": th.get(i, []), "note": note})
        if st != 'not_applicable' and not th.get(i): print("no theorems for", i)
    elif i in th:
        print("theorems but no note for", i)
for i in th:
    if i not in ids: print("unlisted property", i)
json.dump({"claims": claims}, open(root + '/MANIFEST.json', 'w'), indent=1)
print(len(claims), "claims of", len(ids))
