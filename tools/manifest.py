#!/usr/bin/env python3
"""Rewrite MANIFEST.json from the theorems in rocq/theories/Properties*.v.

The status and the note of each claim come from tools/status.json."""
import glob, json, os, re
root = os.path.dirname(os.path.dirname(os.path.abspath(__file__)))
status = json.load(open(os.path.join(root, 'tools', 'status.json')))
thms = {}
for f in sorted(glob.glob(os.path.join(root, 'rocq/theories/Properties*.v'))):
    for m in re.finditer(r'^\s*Theorem\s+((C\d\d)_\w+)', open(f).read(), re.M):
        thms.setdefault(m.group(2), []).append(m.group(1))
claims = []
for pid in sorted(set(thms) | set(status)):
    st = status.get(pid, {})
    claims.append({'property': pid, 'status': st.get('status', 'proved'),
                   'theorems': thms.get(pid, []), 'note': st.get('note', '')})
json.dump({'claims': claims}, open(os.path.join(root, 'MANIFEST.json'), 'w'), indent=1, ensure_ascii=False)
props = [json.loads(l)['id'] for l in open(os.path.join(root, 'properties.jsonl'))]
print('missing:', [p for p in props if p not in thms and p not in status])
