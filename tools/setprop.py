"""Usage: setprop.py < lines of JSON; replaces or appends properties by id."""
import json, sys
path = '/verif/properties.jsonl'
props = [json.loads(l) for l in open(path) if l.strip()]
byid = {p['id']: p for p in props}
for line in sys.stdin:
    if not line.strip():
        continue
    d = json.loads(line)
    if d['id'] in byid:
        byid[d['id']].update(d)
    else:
        props.append(d); byid[d['id']] = d
with open(path, 'w') as f:
    for p in props:
        f.write(json.dumps(p) + '\n')
