"""Mutation testing of the theorems. usage: mutate.py mutants.json out.jsonl [ids...]
Each mutant edits one definition of the model in a scratch copy; every proof that no longer checks is replaced by
Admitted and the theorems of Props whose Print Assumptions then mention such a lemma are the theorems that failed."""
import json, os, re, subprocess, sys, shutil, time
SCR = os.environ.get('MUTDIR', '/tmp/mutwork')
SRC = os.environ.get('MUTSRC', '/verif/rocq')
START = re.compile(r'^\s*(?:Local |Global |#\[[^\]]*\] )*(?:Lemma|Theorem|Example|Corollary|Fact|Remark|Instance|Definition|Fixpoint|Program)\s+(\w+)', re.M)
def run(cmd, timeout):
    try:
        p = subprocess.run(cmd, shell=True, cwd=SCR + '/rocq', stdout=subprocess.PIPE, stderr=subprocess.STDOUT, timeout=timeout, text=True)
        return p.returncode, p.stdout
    except subprocess.TimeoutExpired as e:
        return 124, (e.stdout or b'').decode() if isinstance(e.stdout, bytes) else (e.stdout or '')
def admit(path, line):
    """replace the proof containing the given line by Admitted; return the lemma name, or None"""
    lines = open(path).read().split('\n')
    i = line - 1
    while i >= 0 and not START.match(lines[i]): i -= 1
    if i < 0: return None
    name = START.match(lines[i]).group(1)
    text = '\n'.join(lines)
    off = sum(len(l) + 1 for l in lines[:i])
    m = re.compile(r'(^|(?<=\s))Proof\b').search(text, off)
    if not m: return None
    e = re.compile(r'\b(Qed|Defined)\.').search(text, m.start())
    if not e: return None
    erroff = sum(len(l) + 1 for l in lines[:line - 1])
    if erroff + 1000 < m.start(): return None
    text = text[:m.start()] + 'Admitted.' + '\n' * text[m.start():e.end()].count('\n') + text[e.end():]
    open(path, 'w').write(text)
    return name
DEPS = None
def deps():
    """dependency graph of the theories, read from the .glob files of the source snapshot: name -> names used"""
    global DEPS
    if DEPS is not None: return DEPS
    DEPS = {}
    for root, _, fs in os.walk(SRC + '/theories'):
        for f in fs:
            if not f.endswith('.glob'): continue
            ds = []; refs = []; lib = None
            for l in open(os.path.join(root, f)):
                if l.startswith('F'): lib = l[1:].strip(); continue
                m = re.match(r'(prf|def|thm|ex|inst) (\d+):\d+ (\S+) (\S+)', l)
                if m: ds.append((int(m.group(2)), lib + '.' + m.group(4))); continue
                m = re.match(r'R(\d+):\d+ (Verif\.\S+) (\S+) (\S+) (thm|def|prf|ex|inst)', l)
                if m: refs.append((int(m.group(1)), m.group(2) + '.' + m.group(4)))
            ds.sort(); refs.sort(); i = -1
            for _, d in ds: DEPS.setdefault(d, set())
            for p, r in refs:
                while i + 1 < len(ds) and ds[i + 1][0] <= p: i += 1
                if i >= 0: DEPS[ds[i][1]].add(r)
    return DEPS
def affected(failed, targets):
    """theorems and examples of the Props files that use a failed lemma"""
    D = deps(); bad = {n for n in D if any(n.endswith('.%s.%s' % x) for x in failed)}
    rev = {}
    for a, bs in D.items():
        for b in bs: rev.setdefault(b, set()).add(a)
    todo = list(bad)
    while todo:
        for a in rev.get(todo.pop(), ()):
            if a not in bad: bad.add(a); todo.append(a)
    return sorted(n.split('.')[-1] for n in bad if '.Props.' in n and (not targets or n.split('.')[-2] in targets))
def one(mu):
    subprocess.run('mkdir -p %s; rm -rf %s/rocq; cp -a %s %s/rocq' % (SCR, SCR, SRC, SCR), shell=True, check=True)
    edits = mu.get('edits') or [mu]
    for ed in edits:
        p = SCR + '/rocq/theories/' + ed['file']
        s = open(p).read()
        if ed['old'] not in s: return {'error': 'old text not found in ' + ed['file'] + ': ' + ed['old'][:60]}
        if s.count(ed['old']) > 1 and not ed.get('first'): return {'error': 'old text not unique: ' + ed['old'][:60]}
        s = s.replace(ed['old'], ed['new'], 1)
        open(p, 'w').write(s)
    failed = []; t0 = time.time(); timeouts = []; broken = []
    run('coq_makefile -f _CoqProject -o Makefile', 60)
    while time.time() - t0 < 2400:
        rc, out = run('make -k -j%s COQC="timeout 240 coqc" %s 2>&1' % (os.environ.get('MUTJ', '3'), ' '.join('theories/Props/%s.vo' % t for t in mu.get('targets') or [])), 2400)
        if rc == 0: break
        errs = re.findall(r'File "\./(theories/[\w/]+\.v)", line (\d+), characters [\d-]+:\s*\n\s*Error', out)
        prog = False
        for f, ln in errs:
            n = admit(SCR + '/rocq/' + f, int(ln))
            if n is None: broken.append('%s:%s' % (f, ln))
            else: failed.append((os.path.basename(f)[:-2], n)); prog = True
        if not prog:
            timeouts = re.findall(r'\*\*\* \[[^\]]*\b(theories/[\w/]+)\.vo[^\]]*\] Error 124', out)
            return {'failed_lemmas': ['%s.%s' % x for x in failed], 'statement_broken': broken, 'timeout': timeouts, 'tail': out[-600:]}
    thms = affected(failed, mu.get('targets'))
    return {'failed_lemmas': ['%s.%s' % x for x in failed], 'theorems_failed': thms, 'statement_broken': broken, 'secs': int(time.time() - t0)}
ms = json.load(open(sys.argv[1])); done = set()
if os.path.exists(sys.argv[2]): done = {json.loads(l)['id'] for l in open(sys.argv[2])}
for mu in ms:
    if len(sys.argv) > 3 and mu['id'] not in sys.argv[3:]: continue
    if mu['id'] in done and len(sys.argv) <= 3: continue
    r = one(mu); r['id'] = mu['id']
    open(sys.argv[2], 'a').write(json.dumps(r) + '\n')
    print(mu['id'], {k: (v if k != 'failed_lemmas' else len(v)) for k, v in r.items() if k != 'tail'}, flush=True)
