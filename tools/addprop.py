"""Appends properties given as JSON lines on stdin to properties.jsonl, skipping known ids."""
import json, os, sys
root = os.path.dirname(os.path.dirname(os.path.abspath(__file__)))
path = root + '/properties.jsonl'
known = {json.loads(l)['id'] for l in open(path) if l.strip()}
with open(path, 'a') as f:
    for l in sys.stdin:
        if l.strip():
            d = json.loads(l)
            assert set(d) == {'id', 'title', 'statement', 'quantifier', 'why_tests_cant', 'anchors'}, d
            if d['id'] not in known:
                f.write(json.dumps(d) + '\n')
