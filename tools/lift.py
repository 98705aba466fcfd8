"""Writes the property theorems of a Props file from a plan: each line of the plan names a proved lemma and
the theorem that restates it verbatim (statement copied, proof [exact lemma])."""
import re, sys, glob, os
root = os.path.dirname(os.path.dirname(os.path.abspath(__file__))) + '/rocq/theories'
src = {}
for f in glob.glob(root + '/Proofs/*.v'):
    s = open(f).read()
    mod = os.path.basename(f)[:-2]
    for m in re.finditer(r'^\s*(?:Lemma|Theorem) (\w+)(.*?)\.\s*\n?\s*Proof', s, re.M | re.S):
        src[(mod, m.group(1))] = m.group(2)
        src.setdefault((None, m.group(1)), m.group(2))
def binders(t):
    """names of the explicit binders before the top-level colon"""
    depth = 0
    for i, c in enumerate(t):
        if c in '([{': depth += 1
        if c in ')]}': depth -= 1
        if c == ':' and depth == 0 and t[i:i+2] != ':=':
            head = t[:i]; break
    names = []
    for tok in re.findall(r'\{[^}]*\}|`\([^)]*\)|\((?:[^()]|\([^()]*\))*\)|\S+', head):
        if tok.startswith('{') or tok.startswith('`'): continue
        if tok.startswith('('): names += tok[1:].split(':')[0].split()
        else: names.append(tok)
    return names
out = []
plan = open(sys.argv[1]).read()
mods = [w for l in re.findall(r'From Verif.Proofs Require Import ([^.]*)\.', plan) for w in l.split()]
def find(lem):
    for mod in reversed(mods):
        if (mod, lem) in src: return src[(mod, lem)]
    raise KeyError(lem)
for block in plan.split('\n'):
    m = re.match(r'^@(\w+)\s+(\w+)(?:\s+(.*))?$', block)
    if m:
        lem, thm, com = m.groups()
        t = find(lem)
        if com: out.append('(** %s *)' % com)
        args = binders(t)
        out.append('Theorem %s%s.\nProof. exact %s. Qed.\nPrint Assumptions %s.' % (thm, t, ('(' + lem + ' ' + ' '.join(args) + ')') if args else lem, thm))
    else:
        out.append(block)
open(sys.argv[2], 'w').write('\n'.join(out) + '\n')
