#!/usr/bin/env python3
"""Regenerate MANIFEST.json from the theorem names in rocq/theories/Props*.v and scripts/notes.json."""
import json, re, glob, os
root = os.path.dirname(os.path.dirname(os.path.abspath(__file__)))
thms = {}
for f in sorted(glob.glob(root + '/rocq/theories/Props*.v')):
    mod = os.path.basename(f)[:-2]
    for m in re.finditer(r'^(?:Theorem|Lemma|Corollary) (C\d{2,3})(_\w*)', open(f).read(), re.M):
        thms.setdefault(m.group(1), []).append('%s%s' % (m.group(1), m.group(2)))
notes = json.load(open(root + '/scripts/notes.json'))
claims = []
for line in open(root + '/properties.jsonl'):
    p = json.loads(line)
    i = p['id']
    t = thms.get(i, [])
    n = notes.get(i, {})
    st = n.get('status')
    if st is None:
        st = 'partial' if (not t or any('_partial' in x or '_refuted' in x for x in t)) else 'proved'
    claims.append({'property': i, 'status': st, 'theorems': t, 'note': n.get('note', '' if t else 'not proved yet')})
json.dump({'claims': claims}, open(root + '/MANIFEST.json', 'w'), indent=1)
print({s: sum(c['status'] == s for c in claims) for s in ('proved', 'partial', 'not_applicable')}, [c['property'] for c in claims if not c['theorems']])
