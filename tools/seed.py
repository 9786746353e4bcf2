#!/usr/bin/env python3
"""Seeded-bug harness.  Usage: seed.py spec.json
spec: list of {"file","definition","old","new","edit","claim","theorems_tightened"?}
For each entry: copy rocq/ to /tmp/seed, apply the edit, rebuild; a lemma that no longer proves is
replaced by Admitted *in the scratch copy* so the build goes on; the Props theorems whose Print Assumptions
then list an admitted lemma (or that are themselves admitted) are "failed".  One JSON line per entry is
appended to seeded/LOG.jsonl."""
import json,os,re,shutil,subprocess,sys
V='/verif'; R=os.environ.get('SEED_SRC',V+'/rocq'); S=os.environ.get('SEED_DIR','/tmp/seed')
START=re.compile(r'^\s*(?:Local |Global |#\[[^\]]*\]\s*)?(Lemma|Theorem|Example|Corollary|Fact|Remark|Instance|Definition|Fixpoint)\s+([\w\']+)',re.M)
def run(spec, log=True):
    if os.path.exists(S): shutil.rmtree(S)
    shutil.copytree(R,S,copy_function=shutil.copy2); listed=open(S+'/_CoqProject').read()
    p=f"{S}/theories/{spec['file']}"
    s=open(p).read(); n=s.count(spec['old'])
    if n!=1 and not spec.get('all'): return print("!! old occurs",n,"times in",spec['file'],spec['definition'])
    open(p,'w').write(s.replace(spec['old'],spec['new']))
    subprocess.run('coq_makefile -f _CoqProject -o Makefile >/dev/null 2>&1',shell=True,cwd=S)
    admitted=[];stuck=[]
    for it in range(80):
        try: r=subprocess.run(spec.get('pre','')+'make -k -j4 2>&1',shell=True,cwd=S,capture_output=True,text=True,timeout=1500)
        except subprocess.TimeoutExpired: stuck.append('timeout'); break
        errs=re.findall(r'File "\./(theories/\w+\.v)", line (\d+), characters',r.stdout)
        # only errors
        errs=[]
        ls=r.stdout.split('\n')
        for i,l in enumerate(ls):
            m=re.match(r'File "\./(theories/\w+\.v)", line (\d+), characters (\d+)',l)
            if m and any('Error' in x for x in ls[i+1:i+4]): errs.append((m[1],int(m[2]),int(m[3])))
        if not errs:
            if 'Error' in r.stdout: stuck.append([l for l in ls if 'Error' in l][0])
            break
        prog=False
        for f,ln,ch in errs:
            t=open(f"{S}/{f}").read(); lines=t.split('\n'); off=sum(len(x)+1 for x in lines[:ln-1])+len(lines[ln-1].encode()[:ch].decode(errors='ignore'))
            st=[m for m in START.finditer(t) if m.start()<=off]
            m=st[-1]; q=re.compile(r'\b(Qed|Defined)\.').search(t,m.start())
            pr=re.compile(r'\bProof\b[^.]*\.').search(t,m.start())
            if not q or not pr or pr.start()>q.start() or m[1] in('Definition','Fixpoint') and False: stuck.append(f"{f}:{ln}"); continue
            nxt=[x for x in START.finditer(t) if x.start()>m.start()]
            if nxt and nxt[0].start()<pr.start(): stuck.append(f"{f}:{ln} ({m[2]})"); continue
            if off<pr.start() : stuck.append(f"{f}:{ln} statement of {m[2]}"); continue
            t=t[:pr.start()]+'Proof. Admitted.'+t[q.end():]
            open(f"{S}/{f}",'w').write(t); admitted.append(m[2]); prog=True
        if not prog: break
    failed=[]
    for f in sorted(os.listdir(S+'/theories')):
        if 'Props' not in f or not f.endswith('.v') or 'theories/'+f not in listed: continue
        t=open(f"{S}/theories/{f}").read()
        names=re.findall(r'Print Assumptions ([\w\']+)\.',t)
        thms=re.findall(r'Theorem (C\d+\w*)',t)
        mods=set()
        r=None
        vo=f"{S}/theories/{f}o"
        r0=os.stat(f"{R}/theories/{f}o").st_mtime if os.path.exists(f"{R}/theories/{f}o") else 0
        if os.path.exists(vo) and os.stat(vo).st_mtime==r0 and not stuck: continue
        if os.path.exists(vo) and os.stat(vo).st_mtime==r0:continue
        q="From Verif Require Import %s.\n"%f[:-2]+''.join(f'Goal True. idtac "MARK {n}". Abort.\nPrint Assumptions {n}.\n' for n in thms)
        open(S+'/seedq.v','w').write(q)
        r=subprocess.run('coqc -Q theories Verif seedq.v',shell=True,cwd=S,capture_output=True,text=True)
        if r.returncode: 
            failed+= [x+' (file not built)' for x in thms]; continue
        parts=re.split(r'MARK (C\w+)[^\n]*\n',r.stdout,flags=re.S)
        for nme,body in zip(parts[1::2],parts[2::2]):
            if any(re.search(r'\b%s\b'%re.escape(a),body) for a in admitted): failed.append(nme)
    out={"definition":spec['definition'],"file":spec['file'],"edit":spec['edit'],"claim_broken":spec['claim'],
      "theorems_failed":failed,"helper_lemmas_failed":[a for a in admitted if not re.match(r'C\d',a)][:12],"theorems_tightened":spec.get('theorems_tightened',[])}
    if stuck: out["not_built"]=stuck[:4]
    print(json.dumps(out,indent=1))
    if log: open(V+'/seeded/LOG.jsonl','a').write(json.dumps(out)+'\n')
if __name__=='__main__':
    nolog='-n' in sys.argv
    for sp in json.load(open([a for a in sys.argv[1:] if a!='-n'][0])): run(sp,not nolog)
