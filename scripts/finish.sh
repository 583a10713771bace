#!/bin/sh
# finish.sh X: append Print Assumptions to theories/X_Props.v, compile it, list the files, regenerate the manifest
cd /verif/rocq
f=theories/$1_Props.v
grep -q "^Print Assumptions" $f || { echo >> $f; grep -o "^Theorem [A-Za-z0-9_]*" $f | sed 's/Theorem /Print Assumptions /; s/$/./' >> $f; }
cq $1_Props | sort | uniq -c
../scripts/addfiles.sh $1
cd ..; python3 scripts/manifest.py | tail -1
