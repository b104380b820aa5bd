#!/bin/bash
# usage: goal.sh file line : show goals before given line
head -$(($2-1)) $1 > /tmp/goal_$$.v; echo "Show. Abort All." >> /tmp/goal_$$.v
coqc -Q . Verif /tmp/goal_$$.v 2>&1 | head -${3:-60}; rm -f /tmp/goal_$$.*
