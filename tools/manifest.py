"""Regenerates MANIFEST.json: theorem names from rocq/theories/Props/*.v, notes from tools/notes.json."""
import json, re, glob, os
root = os.path.dirname(os.path.dirname(os.path.abspath(__file__)))
props = [json.loads(l) for l in open(root + '/properties.jsonl') if l.strip()]
notes = json.load(open(root + '/tools/notes.json'))
thms = {}
for f in sorted(glob.glob(root + '/rocq/theories/Props/*.v')):
    for m in re.finditer(r'^Theorem (C\d\d+)_(\w+)', open(f).read(), re.M):
        thms.setdefault(m.group(1), []).append(m.group(1) + '_' + m.group(2))
claims = []
for p in props:
    i = p['id']
    n = notes.get(i, {})
    t = thms.get(i, [])
    if not t:
        status = n.get('status', 'partial')
        note = n.get('note', 'not yet proved')
    else:
        bad = any(x.endswith('_partial') or x.endswith('_refuted') for x in t)
        status = n.get('status', 'partial' if bad else 'proved')
        note = n.get('note', '')
    claims.append({'property': i, 'status': status, 'theorems': t, 'note': note})
json.dump({'claims': claims}, open(root + '/MANIFEST.json', 'w'), indent=1)
print({s: sum(c['status'] == s for c in claims) for s in ('proved', 'partial', 'not_applicable')}, [c['property'] for c in claims if not c['theorems']])
