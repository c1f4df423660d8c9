#!/usr/bin/env python3
"""Writes DESIGN.md: tools/design.md, then the table of theory files and the Print Assumptions of every property theorem
(run after a full make in rocq/)."""
import re, subprocess, glob, os, json
R='/verif/rocq'
files=[l.strip()[9:-2] for l in open(R+'/_CoqProject') if l.strip().endswith('.v')]
def header(f):
    s=open(f'{R}/theories/{f}.v').read()
    m=re.match(r'\(\*\*(.*?)\*\)',s,re.S)
    t=' '.join(m.group(1).split()) if m else ''
    t=re.sub(r'^\w+\.v -- ','',t)
    return re.split(r'(?<=[.])\s+(?=[A-Z\[])',t)[0]
def kind(f):
    if f.startswith('Properties'): return 3
    if f.startswith('Spec'): return 1
    s=open(f'{R}/theories/{f}.v').read()
    if re.search(r'^\s*(Lemma|Theorem)',s,re.M): return 2
    return 0
names=['Model','Specifications','Proofs','Property theorems']
out=open('/verif/tools/design.md').read().rstrip()+'\n\n## Theory files\n'
for k in range(4):
    out+=f'\n### {names[k]}\n\n'
    for f in files:
        if kind(f)==k: out+=f'* `{f}.v`: {header(f)}\n'
out+='\n## Print Assumptions, per theorem\n\nOutput of `Print Assumptions` in the Properties files, in the order of the files.\n\n'
total=closed=0
for f in files:
    if not f.startswith('Properties'): continue
    s=open(f'{R}/theories/{f}.v').read()
    ns=re.findall(r'^Print Assumptions (\S+)\.',s,re.M)
    o=subprocess.run(['coqc','-Q','theories','Verif','-o','/tmp/mkdesign.vo',f'theories/{f}.v'],cwd=R,capture_output=True,text=True)
    if o.returncode:
        # coqc wants the output to be named after the file
        os.makedirs('/tmp/mkdesign',exist_ok=True)
        o=subprocess.run(['coqc','-Q','theories','Verif','-o',f'/tmp/mkdesign/{f}.vo',f'theories/{f}.v'],cwd=R,capture_output=True,text=True)
    assert o.returncode==0,(f,o.stderr[-500:])
    parts=re.findall(r'Closed under the global context|Axioms:\n(?:.+\n)+',o.stdout)
    assert len(parts)==len(ns),(f,len(parts),len(ns))
    out+=f'`{f}.v`\n\n'
    for n,p in zip(ns,parts):
        out+=f'* {n}: {" ".join(p.split())}\n'; total+=1; closed+=p.startswith('Closed')
    out+='\n'
out=out.replace('@TOTAL@',str(total)).replace('@CLOSED@',str(closed))
open('/verif/DESIGN.md','w').write(out.rstrip()+'\n')
print(total,closed)
