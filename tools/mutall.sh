#!/bin/bash
# runs every mutant set; results in /tmp/mut<i>.jsonl
cd /verif
for i in "$@"; do python3 tools/mutate.py tools/mutants$i.json /tmp/mut$i.jsonl; done
