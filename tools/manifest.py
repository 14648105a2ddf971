# rebuild MANIFEST.json, Assumptions.v from the notes file
import json,re,glob,os
notes=json.load(open('/tmp/w/notes.json')) # id -> {status, note}
props=[json.loads(l) for l in open('/verif/properties.jsonl')]
th={}
mods={}
for f in sorted(glob.glob('/verif/rocq/theories/Prop_*.v')):
    m=os.path.basename(f)[:-2]
    for x in re.finditer(r'^Theorem\s+((C\d+)_\w+)',open(f).read(),re.M):
        th.setdefault(x.group(2),[]).append(x.group(1)); mods.setdefault(m,[]).append(x.group(1))
claims=[]
for p in props:
    i=p['id']; n=notes.get(i,{})
    t=th.get(i,[])
    st=n.get('status') or ('proved' if t and not any(z.endswith('_partial') for z in t) else 'partial')
    claims.append(dict(property=i,status=st,theorems=t,note=' '.join(x for x in [n.get('note','' if t else 'Not proved yet.'), ('The expected statement is false of the code: '+', '.join(z for z in t if z.endswith('_refuted'))+'; the other theorems say what holds.') if any(z.endswith('_refuted') for z in t) else ''] if x)))
json.dump({"claims":claims},open('/verif/MANIFEST.json','w'),indent=1)
for f in glob.glob('/verif/rocq/theories/Assumptions*.v'): os.remove(f)
# four parts of about the same number of theorems, so that they are checked in parallel
parts=[[] for _ in range(4)]
for m in sorted(mods,key=lambda m:-len(mods[m])): min(parts,key=lambda p:sum(len(mods[x]) for x in p)).append(m)
for k,p in enumerate(parts,1):
    with open('/verif/rocq/theories/Assumptions%d.v'%k,'w') as f:
        f.write("(** Prints the axioms each claimed theorem depends on (see DESIGN.md), part %d of 4. *)\nFrom Verif Require Import %s.\n\n"%(k,' '.join(sorted(p))))
        for m in sorted(p):
            for t in mods[m]: f.write("Print Assumptions %s.\n"%t)
order=['Base']
allv=[os.path.basename(f)[:-2] for f in glob.glob('/verif/rocq/theories/*.v')]
rest=[m for pre in ('M_','P_','Prop_') for m in sorted(allv) if m.startswith(pre)]
oth=[m for m in sorted(allv) if m not in rest+['Base'] and not m.startswith('Assumptions')]
with open('/verif/rocq/_CoqProject','w') as f:
    f.write('-Q theories Verif\n'+''.join('theories/%s.v\n'%m for m in order+oth+rest+['Assumptions%d'%k for k in (1,2,3,4)]))
print(sum(1 for c in claims if c['theorems']),'of',len(claims),'with theorems;',sum(len(c['theorems']) for c in claims),'theorems')
for c in claims:
    if not c['theorems']: print(c['property'],end=' ')
print()
unk=[t for i in th for t in th[i] if i not in [p['id'] for p in props]]
if unk: print('UNKNOWN',unk)
