import re,sys,json
# usage: addp.py  ID FILE  (reads title/statement/quant/why/anchors from stdin JSON)
d=json.load(sys.stdin)
s=open('/verif/tools/props.py').read()
new='p(%s)\n'%", ".join(json.dumps(x,ensure_ascii=False) for x in [d['id'],d['title'],d['statement'],d['quantifier'],d['why'],d['anchors']])
s=s.replace("json_lines=",new+"json_lines=",1)
open('/verif/tools/props.py','w').write(s)
t=[]
for f in d['files']:
    src=open('/verif/rocq/theories/'+f).read()
    t+=re.findall(r'(?:Theorem|Lemma|Corollary) (%s_\w+)'%d['id'],src)
print(t)
open('/verif/tools/claims.py','a').write('c("%s","%s",%s%s)\n'%(d['id'],d.get('status','proved'),json.dumps(t),(","+json.dumps(d['note'])) if 'note' in d else ""))
