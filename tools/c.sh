#!/bin/bash
# usage: c.sh FILE : compile, and on error show line and goals
cd /verif/rocq/theories
out=$(coqc -Q . Verif $1 2>&1); rc=$?
echo "$out" | head -${2:-60}
if [ $rc -ne 0 ]; then
 l=$(echo "$out" | grep -oP 'line \K[0-9]+' | head -1)
 [ -z "$l" ] && exit 1
 echo "---- $l: $(sed -n ${l}p $1)"; /verif/tools/goal.sh $1 $l ${2:-60} | grep -v "Warning\|Abort All\|undo-batch\|needs to be closed\|tmp.goal"
fi
