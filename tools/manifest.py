#!/usr/bin/env python3
# Source of MANIFEST.json: run `python3 tools/manifest.py` in /verif.
import json,re,glob
C=[]
def c(pid,status,thms,note=""):
    C.append(dict(property=pid,status=status,theorems=thms,note=note))
exec(open("/verif/tools/claims.py").read())
src="\n".join(open(f).read() for f in glob.glob("/verif/rocq/theories/*.v"))
names=set(re.findall(r"^\s*(?:Theorem|Lemma|Example|Corollary)\s+([\w']+)",src,re.M))
for x in C:
    for t in x["theorems"]:
        assert t in names,(x["property"],t)
ids=[json.loads(l)["id"] for l in open("/verif/properties.jsonl")]
have={x["property"] for x in C}
print("unclaimed:",[i for i in ids if i not in have])
assert all(h in ids for h in have)
claimed={t for x in C for t in x["theorems"]}
print("C-theorems not in manifest:",sorted(n for n in names if re.match(r"C\d\d+_",n) and n not in claimed))
json.dump({"claims":C},open("/verif/MANIFEST.json","w"),indent=1)
