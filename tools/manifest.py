#!/usr/bin/env python3
"""Regenerate MANIFEST.json: collects the theorems named Cnn_* from
rocq/theories/Prop*.v; status and notes come from tools/status.json."""
import json, re, glob, os
root = os.path.dirname(os.path.dirname(os.path.abspath(__file__)))
thms = {}
for f in sorted(glob.glob(root + '/rocq/theories/Prop*.v')):
    for m in re.finditer(r'^\s*Theorem\s+(C\d\d\d?)_(\w+)', open(f).read(), re.M):
        thms.setdefault(m.group(1), []).append(m.group(1) + '_' + m.group(2))
status = json.load(open(root + '/tools/status.json'))
ids = [json.loads(l)['id'] for l in open(root + '/properties.jsonl') if l.strip()]
claims = []
for i in ids:
    if i not in thms and i not in status:
        continue
    st = status.get(i, {})
    default = 'partial' if any(n.endswith('_partial') or n.endswith('_refuted') for n in thms.get(i, [])) else 'proved'
    claims.append({"property": i, "status": st.get('status', default),
                   "theorems": thms.get(i, []), "note": st.get('note', '')})
json.dump({"claims": claims}, open(root + '/MANIFEST.json', 'w'), indent=1, ensure_ascii=False)
print({c['property']: c['status'] for c in claims})
print('missing:', [i for i in ids if i not in [c['property'] for c in claims]])
