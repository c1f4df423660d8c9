#!/usr/bin/env python3
"""Wrong-program experiments.  Copies the compiled development to a scratch directory, applies one edit to one model
definition, rebuilds everything that depends on it, and reports which property theorems no longer hold: proofs that
break are admitted in the scratch copy one by one, and a property theorem counts as failed when its own proof breaks
or when Print Assumptions shows that it rests on an admitted one.

usage: seed.py mutants.py workers [id ...]     (mutants.py defines MUTANTS: list of dicts id, file, definition, old, new, edit, breaks)
"""
import sys, os, re, subprocess, shutil, json, runpy, time
from concurrent.futures import ThreadPoolExecutor
SRC='/verif/rocq'; SCRATCH=os.environ.get('SEED_DIR','/tmp/seed')
order=[l.strip()[len('theories/'):-2] for l in open(SRC+'/_CoqProject') if l.strip().endswith('.v')]
deps={}
for f in order:
    s=open(f'{SRC}/theories/{f}.v').read()
    d=set()
    for m in re.finditer(r'From Verif Require (?:Import|Export) ([^.]*)\.',s): d|=set(m.group(1).split())
    deps[f]=d
def dependents(f):
    hit={f}
    for g in order:
        if deps[g]&hit: hit.add(g)
    return [g for g in order if g in hit]
TIMES=json.load(open(SCRATCH+'/times.json')) if os.path.exists(SCRATCH+'/times.json') else {}

def offset(text,line,ch):
    ls=text.encode().split(b'\n'); return len(b'\n'.join(ls[:line-1])+ (b'\n' if line>1 else b''))+ch
def admit(path,off):
    """replace the proof around byte offset off; returns the lemma name or None"""
    b=open(path,'rb').read()
    starts=[m for m in re.finditer(rb'(?:^|(?<=\s))Proof(?: using[^.]*)?\.',b) if m.start()<=off]
    if not starts: return None
    m=starts[-1]
    e=re.compile(rb'(?<=\s)(Qed|Defined)\.').search(b,m.end())
    if not e or e.end()<off: return None
    names=re.findall(rb'(?:Lemma|Theorem|Example|Corollary|Instance|Definition|Fixpoint|Remark|Fact)\s+([A-Za-z0-9_\']+)',b[:m.start()])
    b=b[:m.end()]+b' Admitted.'+b[e.end():]
    open(path,'wb').write(b)
    return names[-1].decode() if names else '?'

def build(d,f,limit):
    admitted=[]; out=''
    for _ in range(60):
        path=f'{d}/theories/{f}.v'
        p=subprocess.Popen(['coqc','-time','-Q','theories','Verif',f'theories/{f}.v'],cwd=d,stdout=subprocess.PIPE,stderr=subprocess.STDOUT)
        try: o,_=p.communicate(timeout=limit); to=False
        except subprocess.TimeoutExpired:
            p.kill(); o,_=p.communicate(); to=True
        out=o.decode(errors='replace')
        if not to and p.returncode==0: return admitted,out,None
        text=open(path).read()
        m=re.search(r'line (\d+), characters (\d+)-(\d+):\s*\n(?:Error|.*\n?Error)',out)
        if to:
            c=re.findall(r'^Chars (\d+) - (\d+) ',out,re.M)
            off=int(c[-1][1])+2 if c else 0
        else:
            ms=re.findall(r'line (\d+), characters (\d+)-(\d+):',out)
            if not ms: return admitted,out,'no location: '+out[-300:]
            off=offset(text,int(ms[-1][0]),int(ms[-1][1]))
        n=admit(path,off)
        if n is None: return admitted,out,('timeout' if to else 'statement')+' at '+str(off)+': '+out[-300:]
        admitted.append(n+(' (timeout)' if to else ''))
    return admitted,out,'too many failures'

def run(m):
    d=f'{SCRATCH}/{m["id"]}'
    shutil.rmtree(d,ignore_errors=True)
    shutil.copytree(SCRATCH+'/base',d)
    path=f'{d}/theories/{m["file"]}.v'
    s=open(path).read()
    reps=m['reps'] if 'reps' in m else [(m['old'],m['new'])]
    for o,n in reps:
        if s.count(o)<1: return dict(id=m['id'],error='old text not found: '+o)
        s=s.replace(o,n) if m.get('all') else s.replace(o,n,1)
    open(path,'w').write(s)
    direct={}; failed=[]; dead=set(); errs={}
    t0=time.time()
    for f in dependents(m['file']):
        if deps[f]&dead:
            dead.add(f); 
            if f.startswith('Properties'):
                failed+=[x+' (not checkable)' for x in re.findall(r'^Theorem (\S+)',open(f'{d}/theories/{f}.v').read(),re.M)]
            continue
        adm,out,err=build(d,f,TIMES.get(f,20)*4+60)
        if adm: direct[f]=adm
        if err: errs[f]=err; dead.add(f)
        if f.startswith('Properties'):
            src=open(f'{d}/theories/{f}.v').read()
            names=re.findall(r'^Print Assumptions (\S+)\.',src,re.M)
            res=re.findall(r'^(Closed under the global context|Axioms:)',out,re.M)
            for n,r in zip(names,res):
                if r=='Axioms:': failed.append(n)
            if err: failed+=[x+' (not checkable)' for x in names[len(res):]]
    r=dict(id=m['id'],direct=direct,failed=failed,errors=errs,wall=round(time.time()-t0))
    json.dump(r,open(f'{SCRATCH}/{m["id"]}.json','w'))
    shutil.rmtree(d,ignore_errors=True)
    return r

if __name__=='__main__':
    M=runpy.run_path(sys.argv[1])['MUTANTS']
    want=set(sys.argv[3:])
    if want: M=[m for m in M if m['id'] in want]
    else: M=[m for m in M if not os.path.exists(f'{SCRATCH}/{m["id"]}.json')]
    with ThreadPoolExecutor(int(sys.argv[2])) as ex:
        for m,r in zip(M,ex.map(run,M)):
            print(m['id'],m['edit'],'| breaks',m['breaks'],'\n   direct:',r.get('direct'),'\n   failed:',r.get('failed'),'\n  ',r.get('errors') or r.get('error') or '',r.get('wall'),flush=True)
