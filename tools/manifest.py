#!/usr/bin/env python3
"""Regenerate MANIFEST.json and rocq/_CoqProject from the theories."""
import json, re, os, glob
ROOT = os.path.dirname(os.path.dirname(os.path.abspath(__file__)))
ORDER = open(os.path.join(ROOT, 'tools', 'order.txt')).read().split()
NOTES = {}
cur = None
for line in open(os.path.join(ROOT, 'tools', 'notes.txt')):
    m = re.match(r'(C\d+)\s+(.*)', line)
    if m: NOTES[m.group(1)] = m.group(2).strip()
thms = {}
for f in sorted(glob.glob(os.path.join(ROOT, 'rocq/theories/Properties_*.v'))):
    for m in re.finditer(r'^Theorem\s+(C\d+)_(\w+)', open(f).read(), re.M):
        thms.setdefault(m.group(1), []).append(m.group(1) + '_' + m.group(2))
claims = []
for l in open(os.path.join(ROOT, 'properties.jsonl')):
    pid = json.loads(l)['id']
    ts = thms.get(pid)
    if not ts: continue
    partial = any(t.endswith('_partial') for t in ts)
    claims.append({'property': pid, 'status': 'partial' if partial else 'proved', 'theorems': ts, 'note': NOTES.get(pid, '')})
json.dump({'claims': claims}, open(os.path.join(ROOT, 'MANIFEST.json'), 'w'), indent=1)
with open(os.path.join(ROOT, 'rocq/_CoqProject'), 'w') as o:
    o.write('-Q theories Verif\n')
    for n in ORDER: o.write('theories/%s.v\n' % n)
print(len(claims), 'claims;', [c['property'] for c in claims if c['status']=='partial'], 'partial')
