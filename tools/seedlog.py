#!/usr/bin/env python3
"""Write seeded/LOG.jsonl from the results of tools/seed.py. usage: seedlog.py LIST.py... ; results are LIST.out*.
Proofs that fail are cut off in the scratch copy, so `broken_proofs` lists the lemmas whose own script no longer checks and
`theorems_failed` the property theorems that depend on one of them or fail themselves."""
import sys, json, glob, os
NOTES = os.path.join(os.path.dirname(__file__), 'seednotes.json')
notes = json.load(open(NOTES)) if os.path.exists(NOTES) else {}
out = []
for lst in sys.argv[1:]:
    ns = {}
    exec(open(lst).read(), ns)
    muts = next(v for k, v in ns.items() if isinstance(v, list) and v and isinstance(v[0], dict) and 'id' in v[0])
    res = {}
    for f in sorted(glob.glob(lst[:-3] + '.out*')):
        for l in open(f):
            d = json.loads(l); res[d['id']] = d
    for m in muts:
        r = res.get(m['id'])
        if not r or 'failed' not in r: continue  # (an edit that does not type-check shows nothing)
        n = notes.get(m['id'], {})
        out.append({'id': m['id'], 'file': m['file'], 'definition': m['definition'], 'edit': m['edit'], 'replaced': m['old'], 'by': m['new'], 'claim_broken': m['claim'],
                    'broken_proofs': r['broken'], 'theorems_failed': r['failed'], 'expected': m.get('expect'), 'theorems_tightened': n.get('tightened', []),
                    **({'note': n['note']} if 'note' in n else {}), **({'error': r['error']} if r.get('error') else {})})
with open(os.path.join(os.path.dirname(__file__), '..', 'seeded', 'LOG.jsonl'), 'w') as f:
    for d in out: f.write(json.dumps(d) + '\n')
print(len(out), 'entries')
for d in out:
    ex = d['expected'] or []
    if isinstance(ex, str): ex = [ex]
    miss = [e for e in ex if not any(t.split('.')[-1].startswith(e) for t in d['theorems_failed'])]
    if miss or not d['theorems_failed']: print('MISSED', d['id'], miss, d.get('error'))
