import json,re,glob
# property -> (status, note); theorems are found by name prefix Cnn_ in P_*.v
notes=json.load(open('/verif/tools/notes.json'))
thms={}
for f in sorted(glob.glob('/verif/rocq/theories/*.v')):
    for m in re.finditer(r'^Theorem (C\d\d\w*)', open(f).read(), re.M):
        thms.setdefault(m.group(1)[:3],[]).append(m.group(1))
ids=[json.loads(l)['id'] for l in open('/verif/properties.jsonl')]
claims=[]
for i in ids:
    if i in notes and i in thms:
        claims.append(dict(property=i,status=notes[i][0],theorems=thms[i],note=notes[i][1]))
    elif i in notes and notes[i][0]=="not_applicable":
        claims.append(dict(property=i,status="not_applicable",theorems=[],note=notes[i][1]))
    else: print("no claim", i, thms.get(i))
json.dump({"claims":claims},open('/verif/MANIFEST.json','w'),indent=1)
