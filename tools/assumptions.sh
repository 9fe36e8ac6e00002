#!/bin/sh
# prints Print Assumptions of every theorem in MANIFEST.json (run after a build in rocq/)
cd "$(dirname "$0")/../rocq" || exit 1
T=$(mktemp -d); python3 - > $T/A.v <<'P'
import json,glob,os
for l in open('_CoqProject'):
    l=l.strip()
    if l.endswith('.v'): print('From Verif Require %s.'%os.path.basename(l)[:-2])
import re
src={}
for f in glob.glob('theories/*.v'):
    for m in re.finditer(r'^\s*(?:Theorem|Lemma|Corollary|Definition|Example) (C\d\d\w*)',open(f).read(),re.M): src[m.group(1)]=os.path.basename(f)[:-2]
for c in json.load(open('../MANIFEST.json'))['claims']:
    for t in c['theorems']: print('Print Assumptions %s.%s.'%(src[t],t))
P
coqc -Q theories Verif $T/A.v | sort | uniq -c; rm -rf $T
