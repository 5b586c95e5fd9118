"""Fail-fast variant of mutate.py: the build stops at the first failing theorem (claims_not_rebuilt is not
computed).  Runs seeded wrong programs: python3 tools/mutate.py FILE.py  (FILE defines M = [(id, file, definition, old, new, claim), ...]).
Each edit is made in a scratch copy, rebuilt with make -k, and one line is appended to seeded/LOG.jsonl."""
import sys,subprocess,re,os,json,shutil
spec=sys.argv[1]; ns={}
exec(open(spec).read(),ns)
only=set(sys.argv[2:])
V='/verif'; S='/tmp/scratch'; SRC=os.environ.get('VSRC',V)
man=json.load(open(V+'/MANIFEST.json'))
thms={t:c['property'] for c in man['claims'] for t in c['theorems']}
logf=V+'/seeded/LOG.jsonl'
done={json.loads(l)['id'] for l in open(logf)} if os.path.exists(logf) else set()
def sh(c): return subprocess.run(c,shell=True,capture_output=True,text=True)
for (mid,f,d,old,new,claim) in ns['M']:
    if (only and mid not in only) or (not only and mid in done): continue
    sh('rm -rf %s && mkdir -p %s && cp -a %s/rocq %s/rocq'%(S,S,SRC,S))
    p='%s/rocq/theories/%s.v'%(S,f)
    s=open(p).read()
    if s.count(old)!=1: print(mid,'PATTERN COUNT',s.count(old)); continue
    open(p,'w').write(s.replace(old,new))
    r=sh('cd %s/rocq && ulimit -v 9000000; timeout 1500 make -j3 2>&1'%S)
    out=r.stdout
    fails=[]
    for m in re.finditer(r'File "\./theories/(\w+)\.v", line (\d+), characters (\d+)-(\d+):\nError',out):
        src=open('%s/rocq/theories/%s.v'%(S,m.group(1))).read().split('\n')[:int(m.group(2))]
        nm=None
        for l in reversed(src):
            q=re.match(r'\s*(?:Local |Global )?(?:Theorem|Lemma|Example|Corollary|Fixpoint|Definition|Instance)\s+(\w+)',l)
            if q: nm=q.group(1);break
        fails.append('%s.%s'%(m.group(1),nm))
    ok=r.returncode==0
    e=dict(id=mid,definition=d,file=f,edit=dict(old=old,new=new),claim_broken=claim,failed=fails,
           build_stopped_at_first_failure=True,claims_not_rebuilt=[],tightened=[])
    print(mid,'SURVIVED' if ok else 'caught',fails,flush=True)
    open(logf,'a').write(json.dumps(e)+'\n')
