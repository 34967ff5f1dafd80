# regenerates /verif/MANIFEST.json; checks that every named theorem exists and every property is covered
import json,re,glob
C=[]
def m(prop,status,theorems,note=""):
    C.append(dict(property=prop,status=status,theorems=theorems,note=note))
exec(open('/verif/tools/claims.py').read())
src=''.join(open(f).read() for f in glob.glob('/verif/rocq/theories/*.v'))
names=set(re.findall(r'^(?:Theorem|Lemma|Corollary|Example)\s+([\w\']+)',src,re.M))
for c in C:
    for t in c['theorems']:
        assert t in names,(c['property'],t)
        assert ('Print Assumptions '+t+'.') in src,('no Print Assumptions',t)
props=[json.loads(l)['id'] for l in open('/verif/properties.jsonl')]
assert props==[c['property'] for c in C],set(props)^set(c['property'] for c in C)
allC=set(n for n in names if re.match(r'C\d\d+_',n) and not n.endswith('_hypotheses_met'))
print('not in manifest:',allC-set(t for c in C for t in c['theorems']))
json.dump({"claims":C},open('/verif/MANIFEST.json','w'),indent=1)
print(len(C))
