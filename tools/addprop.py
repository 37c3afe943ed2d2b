#!/usr/bin/env python3
"""addprop.py: read blocks from stdin (id|title|statement|quantifier|why|anchors, separated by lines of '---') and append/replace in properties.jsonl"""
import sys, json, os
P=os.path.join(os.path.dirname(__file__),'..','properties.jsonl')
cur={}
order=[]
for l in open(P):
    l=l.strip()
    if l:
        o=json.loads(l); cur[o['id']]=o; order.append(o['id'])
for blk in sys.stdin.read().split('\n---\n'):
    blk=blk.strip()
    if not blk: continue
    f=[x.strip() for x in blk.split('\n|')]
    assert len(f)==6,(len(f),blk[:100])
    o=dict(id=f[0].lstrip('|').strip(),title=f[1],statement=' '.join(f[2].split()),quantifier=f[3],why_tests_cant=f[4],anchors=[a.strip() for a in f[5].split(';')])
    if o['id'] not in cur: order.append(o['id'])
    cur[o['id']]=o
with open(P,'w') as g:
    for i in order: g.write(json.dumps(cur[i],ensure_ascii=False)+'\n')
print(len(order))
