"""Regenerates MANIFEST.json from the Props*.v files: theorems are grouped by their C-number prefix."""
import json,re,glob,os
root=os.path.dirname(os.path.dirname(os.path.abspath(__file__)))
props=[json.loads(l)['id'] for l in open(root+'/properties.jsonl')]
notes=json.load(open(root+'/tools/notes.json'))
th={}
for f in sorted(glob.glob(root+'/rocq/theories/Props*.v')):
    for m in re.finditer(r'^\s*Theorem\s+((C\d\d)_\w+)',open(f).read(),re.M):
        th.setdefault(m[2],[]).append(m[1])
claims=[]
for p in props:
    ts=th.get(p,[])
    n=notes.get(p,{})
    st=n.get('status') or ('partial' if (not ts or any(t.endswith('_partial') for t in ts)) else 'proved')
    claims.append({"property":p,"status":st,"theorems":ts,"note":n.get('note','' if ts else 'not yet proved')})
json.dump({"claims":claims},open(root+'/MANIFEST.json','w'),indent=1)
print(sum(c['status']=='proved' for c in claims),'proved',sum(c['status']=='partial' for c in claims),'partial', sum(len(c['theorems']) for c in claims),'theorems')
