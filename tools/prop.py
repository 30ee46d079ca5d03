#!/usr/bin/env python3
"""prop.py < JSON object(s), one per line: add or replace properties by id (fields are merged)"""
import json,sys,os
p=os.path.join(os.path.dirname(__file__),'..','properties.jsonl')
L=[json.loads(l) for l in open(p) if l.strip()]
for l in sys.stdin:
    if not l.strip(): continue
    n=json.loads(l)
    for o in L:
        if o["id"]==n["id"]: o.update(n); break
    else: L.append(n)
open(p,'w').write("".join(json.dumps(o)+"\n" for o in L))
