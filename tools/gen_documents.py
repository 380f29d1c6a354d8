#!/usr/bin/env python3
"""Translate the configuration files shipped in /repo to rocq/theories/M_Documents.v.
Only the YAML constructs that occur there: block maps, flow lists, plain and quoted scalars, comments."""
import re,sys,os,glob
from fractions import Fraction
REPO='/repo'
files=['lyap-test.yaml']+sorted('experiments/benchmarks/cli/'+os.path.basename(f) for f in glob.glob(REPO+'/experiments/benchmarks/cli/*.yaml'))
def scalar(s):
    s=s.strip()
    if s[:1] in '"\'' and s[-1:]==s[:1] and len(s)>=2:
        b=s[1:-1]
        assert '\\' not in b and s[0] not in b
        return ('str',b)
    if s in ('','null','Null','NULL','~'): return ('null',)
    if s in ('true','True','TRUE'): return ('bool',True)
    if s in ('false','False','FALSE'): return ('bool',False)
    assert s.lower() not in ('yes','no','on','off','y','n')
    if re.fullmatch(r'[-+]?(0|[1-9][0-9]*)',s): return ('int',int(s))
    assert not re.fullmatch(r'[-+]?[0-9][0-9_]*(\.[0-9_]*)?([eE][-+]?[0-9]+)?',s), s
    assert s[0] not in '&*!|>%@`{}', s
    return ('str',s)
def value(s):
    s=s.strip()
    if s.startswith('['):
        assert s.endswith(']'), s
        body=s[1:-1]; parts=[]; cur=''; q=None
        for c in body:
            if q: cur+=c; q=None if c==q else q
            elif c in '"\'' and not cur.strip(): cur+=c; q=c
            elif c==',': parts.append(cur); cur=''
            else:
                assert c not in '[]{}', s
                cur+=c
        parts.append(cur)
        return ('list',[scalar(p) for p in parts])
    return scalar(s)
def parse(text):
    doc=[]; cur=None
    for ln in text.split('\n'):
        if not ln.strip() or ln.lstrip().startswith('#'): continue
        assert ' #' not in ln and '\t' not in ln
        ind=len(ln)-len(ln.lstrip())
        m=re.fullmatch(r'(\w+):(?:\s+(.*))?',ln.strip()); assert m,ln
        k,v=m.group(1),(m.group(2) or '')
        if ind==0:
            if v.strip()=='': cur=[]; doc.append((k,('map',cur)))
            else: cur=None; doc.append((k,value(v)))
        else:
            assert cur is not None; cur.append((k,value(v)))
    assert len(set(k for k,_ in doc))==len(doc)
    return doc
def term(v):
    t=v[0]
    if t=='str':
        assert all(32<=ord(c)<127 and c!='"' for c in v[1]); return f'YStr "{v[1]}"'
    if t=='null': return 'YNull'
    if t=='bool': return 'YBool true' if v[1] else 'YBool false'
    if t=='int': return f'YInt {v[1]}' if v[1]>=0 else f'YInt ({v[1]})'
    if t=='list': return 'YList ['+'; '.join(map(term,v[1]))+']'
    if t=='map': return 'YMap ['+'; '.join(f'("{k}", {term(x)})' for k,x in v[1])+']'
    raise Exception(v)
out='''(** The configuration files shipped with the tool, translated by tools/gen_documents.py from their text.
    No proofs in this file.  Not translated: config.yaml (it is empty). *)
From Coq Require Import String ZArith List.
From Verif Require Import M_Cli.
Import ListNotations.
Local Open Scope string_scope.
Local Open Scope Z_scope.

'''
names=[]
for f in files:
    d=parse(open(f'{REPO}/{f}').read())
    nm='doc_'+re.sub(r'\W','_',os.path.basename(f)[:-5])
    if f.count('/')==0: nm='doc_root_lyap_test'
    n=len(open(f'{REPO}/{f}').read().rstrip('\n').split('\n'))
    names.append((f,nm))
    out+=f'(** {f}:1-{n}. *)\nDefinition {nm} : document :=\n  ['+';\n   '.join(f'("{k}", {term(v)})' for k,v in d)+'].\n\n'
out+='Definition shipped_documents : list (string * document) :=\n  ['+';\n   '.join(f'("{f}", {n})' for f,n in names)+'].\n'
open('/verif/rocq/theories/M_Documents.v','w').write(out)
