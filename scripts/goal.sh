#!/bin/sh
# goal.sh FILE LINE: show the proof state just before LINE
cd /verif/rocq; head -n $(($2-1)) $1 > /tmp/goal_$$.v; echo 'Show.' >> /tmp/goal_$$.v
timeout ${3:-120} coqtop -Q theories Verif -l /tmp/goal_$$.v -batch 2>&1 | tail -60 ; rm -f /tmp/goal_$$.v
