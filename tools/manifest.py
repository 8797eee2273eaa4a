"""Regenerate MANIFEST.json from the theorem names in rocq/theories/Props and the notes here."""
import json, re, glob, os
root = os.path.dirname(os.path.dirname(os.path.abspath(__file__)))
notes = json.load(open(os.path.join(root, 'tools', 'notes.json')))
thms = {}
for f in sorted(glob.glob(os.path.join(root, 'rocq/theories/Props/*.v'))):
    for name in re.findall(r'^Theorem (C\d\d)(\w+)', open(f).read(), re.M):
        thms.setdefault(name[0], []).append(name[0] + name[1])
claims = []
for l in open(os.path.join(root, 'properties.jsonl')):
    pid = json.loads(l)['id']
    t = thms.get(pid)
    if not t:
        continue
    partial = any('_partial' in x or '_refuted' in x for x in t)
    claims.append(dict(property=pid, status='partial' if partial else 'proved',
                       theorems=t, note=notes.get(pid, '')))
with open(os.path.join(root, 'MANIFEST.json'), 'w') as f:
    json.dump({'claims': claims}, f, indent=1)
    f.write('\n')
print(len(claims), 'claims')
