"""Sets the note of a property: note.py C18 'text'."""
import json, os, sys
root = os.path.dirname(os.path.dirname(os.path.abspath(__file__)))
path = root + '/tools/notes.json'
d = json.load(open(path))
d[sys.argv[1]] = sys.argv[2]
d = {k: d[k] for k in sorted(d, key=lambda k: int(k[1:]))}
with open(path, 'w') as f:
    f.write('{' + ',\n '.join(json.dumps(k) + ': ' + json.dumps(v) for k, v in d.items()) + '}\n')
