import json,re,glob,os
notes=json.load(open('/verif/tools/notes.json'))
ths={}
for f in sorted(glob.glob('/verif/rocq/theories/Props_*.v')):
    for m in re.finditer(r'^Theorem\s+(c(\d\d+)_[A-Za-z0-9_\']+)',open(f).read(),re.M):
        ths.setdefault('C'+m.group(2),[]).append(m.group(1))
claims=[]
for l in open('/verif/properties.jsonl'):
    p=json.loads(l)['id']
    n=notes.get(p,{})
    if p in ths:
        t=ths[p]
        st=n.get('status') or ('partial' if any('refuted' in x or x.endswith('_partial') for x in t) else 'proved')
        note=n.get('note','')
        claims.append({'property':p,'status':st,'theorems':t,'note':note})
    else:
        claims.append({'property':p,'status':'partial','theorems':[],'note':'not yet modelled'})
json.dump({'claims':claims},open('/verif/MANIFEST.json','w'),indent=1)
print(len(ths),'claims with theorems;',sum(c['status']=='proved' for c in claims),'proved; missing',[c['property'] for c in claims if not c['theorems']])
