#!/usr/bin/env python3
"""addthm.py PROP thm... : add theorems to a claim of MANIFEST.json"""
import json,sys,os
p=os.path.join(os.path.dirname(__file__),'..','MANIFEST.json')
d=json.load(open(p))
for c in d["claims"]:
    if c["property"]==sys.argv[1]:
        for t in sys.argv[2:]:
            if t not in c["theorems"]: c["theorems"].append(t)
json.dump(d,open(p,'w'),indent=1)
