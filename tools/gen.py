#!/usr/bin/env python3
"""Generate P_*.v (property theorems only) from annotated lemmas in L_*.v.

In L_X.v a lemma preceded by   (*@P C01_name: english *)   becomes, in P_X.v,
   Theorem C01_name : <statement>.  Proof. exact lemma. Qed.  Print Assumptions.
(*@E name: english *) does the same with Example and without Print Assumptions.
Also checks MANIFEST.json names. Run from anywhere."""
import re,os,glob,json,sys
root=os.path.join(os.path.dirname(os.path.abspath(__file__)),'..','rocq','theories')
pat=re.compile(r'\(\*@([PE])\s+(\w+)\s*:?(.*?)\*\)\s*(?:Lemma|Theorem|Example)\s+(\w+)\s*:(.*?)\.\s*\nProof\.',re.S)
names={}
for f in sorted(glob.glob(os.path.join(root,'L_*.v'))):
    s=open(f).read()
    items=pat.findall(s)
    if s.count('(*@')!=len(items): print('WARNING unmatched annotation in',f,s.count('(*@'),len(items))
    if not items: continue
    base=os.path.basename(f)[2:-2]
    imps=[l for l in s.split('\n') if l.startswith('From Verif Require') or l.startswith('From Coquelicot') or l.startswith('From Flocq') or l.startswith('From Coq ') or l.startswith('Open Scope') or l.startswith('Import ListNotations') or l.startswith('Local Open Scope') or l.startswith('Close Scope') or l.startswith('Set Implicit')]
    out=['(** Property theorems of L_%s.v. Generated by tools/gen.py; statements only, proofs are in L_%s.v. *)'%(base,base)]
    reqs=[l for l in imps if l.startswith('From')]
    out+=reqs+['From Verif Require Import L_%s.'%base]+[l for l in imps if not l.startswith('From')]+['']
    for kind,name,eng,lem,st in items:
        if eng.strip(): out.append('(** %s *)'%' '.join(eng.split()))
        out.append('%s %s :%s.'%('Theorem' if kind=='P' else 'Example',name,st.rstrip()))
        out.append('Proof. exact %s. Qed.'%lem)
        if kind=='P':
            out.append('Print Assumptions %s.'%name); names.setdefault(name.split('_')[0],[]).append(name)
        out.append('')
    txt='\n'.join(out)
    pf=os.path.join(root,'P_%s.v'%base)
    if not os.path.exists(pf) or open(pf).read()!=txt: open(pf,'w').write(txt)
order=[os.path.basename(x) for x in glob.glob(os.path.join(root,'*.v'))]
proj=os.path.join(root,'..','_CoqProject')
txt='-Q theories Verif\n'+''.join('theories/%s\n'%x for x in sorted(order))
if open(proj).read()!=txt: open(proj,'w').write(txt)
# manifest
status_file=os.path.join(root,'..','..','tools','status.json')
status=json.load(open(status_file)) if os.path.exists(status_file) else {}
claims=[]
props=[json.loads(l) for l in open(os.path.join(root,'..','..','properties.jsonl'))]
for p in props:
    i=p['id']; st=status.get(i,{})
    th=names.get(i,[])
    stt=st.get('status', 'not_applicable' if not th else 'partial')
    claims.append(dict(property=i,status=stt,theorems=th,note=st.get('note','')))
json.dump(dict(claims=claims),open(os.path.join(root,'..','..','MANIFEST.json'),'w'),indent=1)
print({k:len(v) for k,v in sorted(names.items())})
