import json,re
M={}
def c(pid,status,ths,note=""): M[pid]=dict(property=pid,status=status,theorems=ths,note=note)
exec(open('/verif/tools/claims.py').read())
ids=[json.loads(l)['id'] for l in open('/verif/properties.jsonl')]
out=[]
for i in ids:
    if i in M: out.append(M[i])
json.dump({"claims":out},open('/verif/MANIFEST.json','w'),indent=1)
import glob
src=''.join(open(f).read() for f in glob.glob('/verif/rocq/theories/*.v'))
for m in out:
    for t in m['theorems']:
        if not re.search(r'\b(Theorem)\s+'+re.escape(t)+r'\b',src): print('MISSING',m['property'],t)
print(len(out),'claims;',[i for i in ids if i not in M])
