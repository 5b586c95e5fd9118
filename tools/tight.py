"""python3 tools/tight.py ID THEOREM...: records in seeded/LOG.jsonl the theorems added because mutant ID survived."""
import sys,json
f='/verif/seeded/LOG.jsonl'; out=[]
for l in open(f):
    if not l.strip(): continue
    e=json.loads(l)
    if e['id']==sys.argv[1]: e['tightened']=sorted(set(e['tightened'])|set(sys.argv[2:]))
    out.append(json.dumps(e))
open(f,'w').write('\n'.join(out)+'\n')
