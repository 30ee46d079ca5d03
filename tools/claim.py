#!/usr/bin/env python3
"""claim.py PROP STATUS 'thm1 thm2' 'note' : add or replace a claim of MANIFEST.json"""
import json,sys,os
p=os.path.join(os.path.dirname(__file__),'..','MANIFEST.json')
d=json.load(open(p)) if os.path.exists(p) else {"claims":[]}
prop,status,thms,note=sys.argv[1:5]
d["claims"]=[c for c in d["claims"] if c["property"]!=prop]
d["claims"].append({"property":prop,"status":status,"theorems":thms.split(),"note":note})
d["claims"].sort(key=lambda c:c["property"])
json.dump(d,open(p,'w'),indent=1)
