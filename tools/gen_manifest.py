#!/usr/bin/env python3
"""Writes MANIFEST.json: theorems are found by their Cxx_ prefix in rocq/theories/*.v;
status and notes come from STATUS below (default proved)."""
import re, json, glob, os
root=os.path.join(os.path.dirname(__file__),'..')
ids=[json.loads(l)['id'] for l in open(os.path.join(root,'properties.jsonl'))]
exec(open(os.path.join(root,'tools','status.py')).read())
proj=[l.strip() for l in open(os.path.join(root,'rocq/_CoqProject')) if l.strip().endswith('.v')]
thms={}
for f in proj:
    s=open(os.path.join(root,'rocq',f)).read()
    for m in re.finditer(r'^(?:Theorem|Corollary)\s+(C\d\d_[A-Za-z0-9_\']+)',s,re.M):
        thms.setdefault(m.group(1)[:3],[]).append(m.group(1))
claims=[]
for i in ids:
    ts=thms.get(i,[])
    st,note=STATUS.get(i,("proved",""))
    if not ts: continue
    claims.append({"property":i,"status":st,"theorems":ts,"note":note})
json.dump({"claims":claims},open(os.path.join(root,'MANIFEST.json'),'w'),indent=1)
print(len(claims),'claims',sum(len(c['theorems']) for c in claims),'theorems; missing',[i for i in ids if i not in thms])
