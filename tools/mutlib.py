import json, re
ROOT = '/verif/rocq/theories/'
class Set:
    def __init__(self, file, targets): self.file, self.targets, self.M = file, targets, []; self.text = open(ROOT + file).read()
    def __call__(self, id, definition, old, new, edit, claim):
        m = re.search(r'^(?:Definition|Fixpoint) %s\b' % re.escape(definition), self.text, re.M)
        assert m, definition
        e = re.compile(r'^(?:Definition|Fixpoint|Record|Inductive|\(\*\*)', re.M).search(self.text, m.end())
        t = self.text[m.start():e.start() if e else len(self.text)]
        assert t.count(old) == 1, (id, definition, old, t.count(old))
        assert self.text.count(t) == 1
        self.M.append(dict(id=id, file=self.file, definition=definition, old=t, new=t.replace(old, new), sold=old, snew=new, edit=edit, claim=claim, targets=self.targets))
def save(name, *sets):
    M = [x for s in sets for x in s.M]; assert len({x['id'] for x in M}) == len(M)
    json.dump(M, open('/verif/tools/%s.json' % name, 'w'), indent=0); print(len(M))
