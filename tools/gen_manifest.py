import json,re,glob
# property -> status, note overrides
over=json.load(open('/verif/tools/manifest_notes.json'))
props=[json.loads(l)['id'] for l in open('/verif/properties.jsonl')]
thms={}
for f in sorted(glob.glob('/verif/rocq/theories/Prop*.v')):
    for m in re.finditer(r'^Theorem ((C\d\d\d?)_\w+)',open(f).read(),re.M):
        thms.setdefault(m.group(2),[]).append(m.group(1))
claims=[]
for p in props:
    t=thms.get(p,[])
    if not t: 
        st='partial'; note='not yet proved'
        continue
    st='partial' if any(x.endswith('_partial') for x in t) else 'proved'
    o=over.get(p,{})
    claims.append({"property":p,"status":o.get('status',st),"theorems":t,"note":o.get('note','')})
json.dump({"claims":claims},open('/verif/MANIFEST.json','w'),indent=1)
print(len(claims),[p for p in props if p not in thms])
