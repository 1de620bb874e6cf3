"""note.py file.json: merge {id: note} into notes.json."""
import json, sys
p = '/verif/scripts/notes.json'
d = json.load(open(p))
for k, v in json.load(open(sys.argv[1])).items():
    d[k] = v if isinstance(v, dict) else {"note": v}
json.dump(d, open(p, 'w'), indent=1, sort_keys=True)
