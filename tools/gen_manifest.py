#!/usr/bin/env python3
"""Write /verif/MANIFEST.json."""
import json
claims=[]
def c(p,status,theorems,note=""):
    claims.append({"property":p,"status":status,"theorems":theorems,"note":note})
exec(open("/verif/tools/claims.py").read())
json.dump({"claims":claims},open("/verif/MANIFEST.json","w"),indent=1)
print(len(claims),"claims")
