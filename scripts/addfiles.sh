#!/bin/sh
# addfiles.sh X [suffixes...]: list theories/X_*.v in _CoqProject
cd /verif/rocq
for x in "$@"; do for s in Model Spec Proof Props; do f=theories/${x}_$s.v; [ -f $f ] && ! grep -qx "$f" _CoqProject && echo $f >> _CoqProject; done; done
coq_makefile -f _CoqProject -o Makefile
