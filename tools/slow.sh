#!/bin/bash
# slow.sh FILE SECONDS: where does coqc hang?
cd /verif/rocq/theories
timeout ${2:-100} coqc -time -Q . Verif $1 > /tmp/t.log 2>&1; tail -3 /tmp/t.log
python3 - $1 <<'P'
import re,sys
ms=[l for l in open('/tmp/t.log').read().splitlines() if l.startswith('Chars')]
m=re.search(r'Chars (\d+) - (\d+)',ms[-1])
s=open(sys.argv[1],'rb').read()
print(s[int(m.group(2)):int(m.group(2))+300].decode())
P
