"""addprop.py: appends (or replaces) properties given as JSON lines on stdin; anchors may be written 'file: A, B'."""
import json, sys, os
p = os.path.dirname(os.path.dirname(os.path.abspath(__file__))) + '/properties.jsonl'
L = [json.loads(l) for l in open(p)]
for l in sys.stdin:
    if not l.strip(): continue
    d = json.loads(l)
    d['anchors'] = [a if isinstance(a, dict) else {'file': a.split(':')[0].strip(), 'symbols': [s.strip() for s in a.split(':')[1].split(',')]} for a in d['anchors']]
    L = [e for e in L if e['id'] != d['id']] + [d]
open(p, 'w').write(''.join(json.dumps(d) + '\n' for d in L))
