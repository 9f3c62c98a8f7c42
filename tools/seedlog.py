"""Write seeded/LOG.jsonl from mutation results.

usage: seedlog.py LOG.jsonl RESULTS_DIR... ; later directories are further attempts.
TIGHTENED (tools/tightened.json) maps a mutation id to the theorems added or strengthened because of it.
EQUIVALENT (tools/equivalent.json) says why an edit breaks no claim, or could not be tried.
"""
import json, os, re, sys

out, dirs = sys.argv[1], sys.argv[2:]
tight = json.load(open(os.path.join(os.path.dirname(__file__), 'tightened.json')))
same = json.load(open(os.path.join(os.path.dirname(__file__), 'equivalent.json')))
lines = []
for k, d in enumerate(dirs):
    for f in sorted(os.listdir(d)):
        r = json.load(open(os.path.join(d, f)))
        failed = [x.split(':')[0] for x in r['failed']]
        line = {'id': r['id'], 'attempt': 1 + sum(1 for e in dirs[:k] if os.path.exists(os.path.join(e, f))),
                'definition': r['file'][:-2] + '.' + r['def'], 'edit': r['edit'],
                'claim_broken': r['claim'], 'theorems_failed': failed}
        claim = r['claim'].split(':')[0]
        later = any(os.path.exists(os.path.join(e, f)) for e in dirs[k + 1:])
        line['theorems_tightened'] = tight.get(r['id'], []) if (later or not any(os.path.exists(os.path.join(e, f)) for e in dirs[:k])) else []
        if r['id'] in same:
            line['claim_broken'], line['note'] = 'none (tried against ' + r['claim'] + ')', same[r['id']]
        lines.append(line)
open(out, 'w').write(''.join(json.dumps(l) + '\n' for l in lines))
none = [l['id'] for l in lines if not l['theorems_failed'] and not l['theorems_tightened'] and 'note' not in l]
print(len(lines), 'attempts; nothing failed and nothing tightened:', none)
