"""Regenerate MANIFEST.json from the theorem names in rocq/theories/Prop*.v.

A theorem named Cnn_... belongs to property Cnn.  Notes and statuses that
differ from "proved" are kept in tools/notes.json.
"""
import glob, json, os, re
root = os.path.dirname(os.path.dirname(os.path.abspath(__file__)))
notes = json.load(open(os.path.join(root, 'tools', 'notes.json')))
thms = {}
for f in sorted(glob.glob(os.path.join(root, 'rocq/theories/Prop*.v'))):
    for m in re.finditer(r'^Theorem ((C\d+)_\w+)', open(f).read(), re.M):
        thms.setdefault(m.group(2), []).append(m.group(1))
claims = []
for line in open(os.path.join(root, 'properties.jsonl')):
    pid = json.loads(line)['id']
    n = notes.get(pid, {})
    if pid in thms:
        claims.append({'property': pid, 'status': n.get('status', 'proved'),
                       'theorems': thms[pid], 'note': n.get('note', '')})
    elif n.get('status') == 'not_applicable':
        claims.append({'property': pid, 'status': 'not_applicable', 'theorems': [], 'note': n['note']})
with open(os.path.join(root, 'MANIFEST.json'), 'w') as out:
    json.dump({'claims': claims}, out, indent=1)
    out.write('\n')
print(len(claims), 'claims,', sum(len(v) for v in thms.values()), 'theorems')
