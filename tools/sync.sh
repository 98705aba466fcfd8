#!/bin/bash
# Lists every theory file in _CoqProject, rebuilds, refreshes the manifest.
cd /verif
python3 - <<'P'
import glob
q='/verif/rocq/_CoqProject';s=open(q).read()
for k in ['Model','Spec','Proofs','Props']:
    for f in sorted(glob.glob(f'/verif/rocq/theories/{k}/*.v')):
        r=f[len('/verif/rocq/'):]
        if r not in s.split(): s=s.rstrip('\n')+'\n'+r+'\n'
open(q,'w').write(s)
P
cd rocq && coq_makefile -f _CoqProject -o Makefile && timeout 2400 make -j4 2>&1 | grep -E -B3 -A12 "Error|error" | tail -40
cd .. && python3 tools/manifest.py
