#!/usr/bin/env python3
"""Regenerates /verif/MANIFEST.json. Theorems of a property = every Theorem whose name
starts with its id in rocq/theories/P_*.v; status and note from the table below."""
import json, re, glob, os
root = os.path.dirname(os.path.dirname(os.path.abspath(__file__)))
exec(open(os.path.join(root, 'tools', 'notes.py')).read())
ths = {}
for f in sorted(glob.glob(root + '/rocq/theories/P_*.v')):
    for m in re.finditer(r'^(?:Theorem|Corollary)\s+(C\d\d_\w+)', open(f).read(), re.M):
        ths.setdefault(m.group(1)[:3], []).append(m.group(1))
claims = []
for l in open(root + '/properties.jsonl'):
    pid = json.loads(l)['id']
    if pid in NOTES and pid in ths:
        st, note = NOTES[pid]
        claims.append({"property": pid, "status": st, "theorems": ths[pid], "note": note})
    else:
        print("no claim for", pid, ths.get(pid))
json.dump({"claims": claims}, open(root + '/MANIFEST.json', 'w'), indent=1)
