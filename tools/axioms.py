#!/usr/bin/env python3
# Prints the axioms of every theorem named in MANIFEST.json (run after make; needs the compiled files).
# Writes tools/axioms.json.
import json,subprocess,re,glob,os,tempfile
root='/verif/rocq/theories'
ths=[t for c in json.load(open('/verif/MANIFEST.json'))['claims'] for t in c['theorems']]
where={}
for f in sorted(glob.glob(root+'/P_*.v')):
    for m in re.finditer(r'^Theorem\s+(C\d\d_\w+)',open(f).read(),re.M): where[m.group(1)]=os.path.basename(f)[:-2]
byf={}
for t in ths: byf.setdefault(where[t.split('.')[-1]],[]).append(t.split('.')[-1])
res={}
for f,l in byf.items():
    src=f"From Verif Require {f}.\n"
    for t in l: src+=f'Goal True. idtac "@@{t}". Abort.\nPrint Assumptions Verif.{f}.{t}.\n'
    d=tempfile.mkdtemp(); p=d+'/Ax.v'; open(p,'w').write(src)
    o=subprocess.run(['coqc','-Q',root,'Verif',p],capture_output=True,text=True); assert o.returncode==0,o.stderr
    for part in o.stdout.split('@@')[1:]:
        name,rest=part.split('\n',1)
        ax=[] if 'Closed under the global context' in rest else re.findall(r'^([\w\.]+)\s*(?::|$)',rest,re.M)
        res[name.strip()]=sorted(a for a in ax if a!='Axioms')
json.dump({'file':where,'axioms':res},open('/verif/tools/axioms.json','w'),indent=0,sort_keys=True)
print({a for l in res.values() for a in l}, len(res))
