#!/usr/bin/env python3
"""Regenerates MANIFEST.json from tools/claims.txt: 'Cxx status thm thm ... | note' per line."""
import json,os
r=os.path.dirname(os.path.dirname(os.path.abspath(__file__)))
out=[]
for l in open(r+'/tools/claims.txt'):
    l=l.strip()
    if not l or l[0]=='#': continue
    a,_,note=l.partition('|')
    w=a.split()
    out.append(dict(property=w[0],status=w[1],theorems=w[2:],note=note.strip()))
json.dump({'claims':out},open(r+'/MANIFEST.json','w'),indent=1)
