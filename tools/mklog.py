"""Writes seeded/LOG.jsonl from the mutant definitions (tools/mutants*.json) and the results of tools/mutate.py.
usage: mklog.py results.jsonl...  (in order: when a mutant was run again after a tightening, the later file wins)"""
import json, sys, glob
muts = {}
for f in sorted(glob.glob('tools/mutants*.json')):
    for m in json.load(open(f)): muts[m['id']] = m
runs = {}
for f in sys.argv[1:]:
    for l in open(f):
        r = json.loads(l)
        if 'theorems_failed' not in r: continue
        runs.setdefault(r['id'], []).append(r)
ren = json.load(open('tools/rename.json'))
out = []; alive = []
for i, rs in runs.items():
    if i not in muts: continue
    m = muts[i]; last = rs[-1]; failed = last['theorems_failed'] + [t for t in last.get('statement_broken', []) if t not in last['theorems_failed']]
    failed = [ren.get(t, t) for t in failed]
    survived_before = len(rs) > 1 and not rs[0]['theorems_failed']
    d = dict(id=i, definition=m['file'] + ': ' + m['definition'], edit=m['edit'], diff='- %s\n+ %s' % (m.get('sold', m['old']), m.get('snew', m['new'])), claim=m['claim'],
             theorems_failed=failed, theorems_tightened=failed if survived_before else [])
    if survived_before: d['note'] = 'the first run left every theorem standing; the theorems listed as tightened were added or strengthened and then failed'
    if not failed: alive.append(i); d['note'] = m.get('why_alive', 'survived')
    out.append(d)
open('seeded/LOG.jsonl', 'w').write(''.join(json.dumps(d) + '\n' for d in out))
print(len(out), 'alive:', alive, 'not run:', [i for i in muts if i not in runs])
