#!/usr/bin/env python3
# Regenerates /verif/DESIGN.md from the hand-written text below, properties.jsonl, MANIFEST.json and tools/axioms.json.
import json
props=[json.loads(l) for l in open('/verif/properties.jsonl')]
man={c['property']:c for c in json.load(open('/verif/MANIFEST.json'))['claims']}
ax=json.load(open('/verif/tools/axioms.json'))
notes=json.load(open('/verif/tools/notes.json'))
plan=json.load(open('/verif/tools/plan.json'))
head=open('/verif/tools/design_head.md').read()
tail=open('/verif/tools/design_tail.md').read()
CL={():'none',
 ('ClassicalDedekindReals.sig_forall_dec',):'A',
 ('ClassicalDedekindReals.sig_forall_dec','FunctionalExtensionality.functional_extensionality_dep'):'B',
 ('ClassicalDedekindReals.sig_forall_dec','ClassicalDedekindReals.sig_not_dec','FunctionalExtensionality.functional_extensionality_dep'):'C',
 ('ClassicalDedekindReals.sig_forall_dec','ClassicalDedekindReals.sig_not_dec','Classical_Prop.classic','FunctionalExtensionality.functional_extensionality_dep'):'D'}
out=[head]
out.append('| id | property | what is modelled | how it is proved |\n|----|----|----|----|\n')
for p in props:
    m,h=plan[p['id']]
    out.append(f"| {p['id']} | {p['title']} | {m} | {h} |\n")
out.append(tail)
out.append('\n## 7. Axioms per theorem (Print Assumptions, generated by tools/axioms.py)\n\n')
out.append('`none`: closed under the global context; `A` = {sig_forall_dec}; `B` = A + {functional_extensionality_dep}; `C` = B + {sig_not_dec}; `D` = C + {classic}. Full names: `ClassicalDedekindReals.sig_forall_dec`, `ClassicalDedekindReals.sig_not_dec`, `FunctionalExtensionality.functional_extensionality_dep`, `Classical_Prop.classic`. No others occur.\n\n')
out.append('| property | status | theorems (file: name [axioms]) |\n|----|----|----|\n')
for p in props:
    c=man[p['id']]; by={}
    for t in c['theorems']:
        t=t.split('.')[-1]; by.setdefault(ax['file'][t],[]).append(f"{t} [{CL[tuple(ax['axioms'][t])]}]" if t in ax['axioms'] else t+' [run axioms.py]')
    out.append(f"| {p['id']} | {c['status']} | "+'; '.join(f"`{f}`: "+', '.join(l) for f,l in by.items())+' |\n')
open('/verif/DESIGN.md','w').write(''.join(out))
