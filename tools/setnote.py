"""Usage: setnote.py ID 'note' [ID 'note' ...]"""
import json, sys
path = '/verif/tools/notes.json'
d = json.load(open(path))
a = sys.argv[1:]
for i in range(0, len(a), 2):
    d.setdefault(a[i], {})['note'] = a[i + 1]
json.dump(d, open(path, 'w'), indent=1)
