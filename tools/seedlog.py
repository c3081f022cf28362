#!/usr/bin/env python3
"""Appends the results of tools/seed.py (/tmp/seed/results.jsonl) to seeded/LOG.jsonl.

"theorems_failed" are all theorems that depend on a proof that broke ("broken_proofs"); several of them
usually fail because of one lemma. "survivors" are the theorems expected to fail that did not.
Tightenings are recorded by hand: seedlog.py tighten <definition> <edit> <theorem>...
Comments too: seedlog.py comment <definition> <edit> <text>
"""
import json, os, sys
SRC, LOG = '/tmp/seed/results.jsonl', '/verif/seeded/LOG.jsonl'
old = [json.loads(l) for l in open(LOG)] if os.path.exists(LOG) else []
if sys.argv[1:2] == ['tighten']:
    _, _, d, edit, *names = sys.argv
    hits = [e for e in old if e['definition'] == d and e['edit'] == edit]
    assert hits, 'no such entry'
    hits[-1]['theorems_tightened'] += names
elif sys.argv[1:2] == ['comment']:
    _, _, d, edit, text = sys.argv
    hits = [e for e in old if e['definition'] == d and e['edit'] == edit]
    assert hits, 'no such entry'
    hits[-1]['comment'] = text
else:
    seen = {(e['file'], e['definition'], e['edit'], e['attempt']) for e in old}
    count = {}
    for l in open(SRC):
        r = json.loads(l); k = (r['file'], r['definition'], r['edit']); count[k] = count.get(k, 0) + 1
        if (*k, count[k]) in seen: continue
        old.append({'definition': r['definition'], 'file': r['file'], 'edit': r['edit'], 'old': r['old'], 'new': r['new'],
                    'claim_broken': r['breaks'], 'theorems_failed': r['failed'], 'broken_proofs': r['broken'],
                    'survivors': r['survivors'], 'theorems_tightened': [], 'attempt': count[k]})
open(LOG, 'w').write(''.join(json.dumps(e) + '\n' for e in old))
print(len(old))
