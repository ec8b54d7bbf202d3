#!/usr/bin/env python3
"""Seeded-bug harness.  usage: mutate.py MUTATIONS.json [LOG.jsonl]
Each mutation {def, file, old, new, claim}: copies rocq/ to a scratch directory,
applies the edit, recompiles; a proof that no longer goes through is replaced by
Admitted and compilation continues, and finally the Cxx theorems whose
Print Assumptions mention such a lemma are reported as failed."""
import sys,json,os,re,subprocess,shutil,glob
root=os.environ.get('MROOT','/verif/rocq')
muts=json.load(open(sys.argv[1]))
log=sys.argv[2] if len(sys.argv)>2 else '/verif/seeded/LOG.jsonl'
scratch='/tmp/mut_%d'%os.getpid()
SENT=re.compile(r'^\s*(?:Local\s+|Global\s+|#\[[^\]]*\]\s*)*(Lemma|Theorem|Example|Corollary|Fact|Remark|Instance|Program Definition|Next Obligation)\s+([\w\']+)?',re.M)
def order():
    return [l.strip() for l in open((scratch if os.path.exists(scratch) else root)+'/_CoqProject') if l.strip().endswith('.v')]
def deps():
    d={}
    for f in order():
        s=open(scratch+'/'+f).read()
        b=f[len('theories/'):-2]
        d[b]=set()
        for m in re.finditer(r'From Verif Require (?:Import|Export)?([^.]*)\.',s): d[b]|=set(m.group(1).split())
    return d
def closure(d,b):
    r={b}
    ch=True
    while ch:
        ch=False
        for k,v in d.items():
            if k not in r and v&r: r.add(k); ch=True
    return r
def run(m):
    shutil.rmtree(scratch,ignore_errors=True); shutil.copytree(root,scratch)
    p=scratch+'/theories/'+m['file']
    s=open(p).read()
    if s.count(m['old'])!=1: return {'error':'old text occurs %d times'%s.count(m['old'])}
    open(p,'w').write(s.replace(m['old'],m['new']))
    d=deps(); aff=closure(d,m['file'][:-2])
    broken=[]
    for f in order():
        b=f[len('theories/'):-2]
        if b not in aff: continue
        for it in range(60):
            r=subprocess.run(['timeout','400','coqc','-Q','theories','Verif',f],cwd=scratch,capture_output=True,text=True)
            if r.returncode==0: break
            out=r.stdout+r.stderr
            mm=[x for x in re.finditer(r'line (\d+), characters (\d+)-(\d+):\s*\n?Error',out)] or [x for x in re.finditer(r'line (\d+), characters (\d+)-(\d+)',out)]
            src=open(scratch+'/'+f).read(); lines=src.split('\n')
            if not mm:
                # timed out: the proof whose sentence does not end is taken to be broken
                r=subprocess.run(['timeout','200','coqc','-time','-Q','theories','Verif',f],cwd=scratch,capture_output=True,text=True)
                cc=re.findall(r'^Chars (\d+) - (\d+)',r.stdout,re.M)
                if not cc: return {'error':'timeout or unknown in %s: %s'%(b,out[-300:])}
                L=src.encode()[:int(cc[-1][1])+2].decode(errors='ignore').count('\n')+1
            else: L=int(mm[-1].group(1))
            off=sum(len(x)+1 for x in lines[:L-1])
            endl=off+len(lines[L-1])
            starts=[x for x in SENT.finditer(src) if x.start()<=endl]
            if not starts: return {'error':'statement-level failure in %s:%d %s'%(b,L,out[-300:])}
            st=starts[-1]
            pr=re.compile(r'\bProof\b[^.]*\.').search(src,st.start())
            if not pr or pr.start()>endl: return {'error':'statement-level failure in %s:%d %s'%(b,L,out[-300:])}
            q=re.compile(r'\b(Qed|Defined)\.').search(src,pr.end())
            if off>q.end(): return {'error':'statement-level failure in %s:%d %s'%(b,L,out[-300:])}
            new=src[:pr.start()]+'Admitted.'+'\n'*src[pr.start():q.end()].count('\n')+src[q.end():]
            open(scratch+'/'+f,'w').write(new)
            broken.append(b+'.'+(st.group(2) or '?'))
    failed=[]
    for b in sorted(aff):
        names=re.findall(r'^Theorem (C\d\d_\w+)',open(scratch+'/theories/'+b+'.v').read(),re.M)
        if not names: continue
        t='From Verif Require Import %s.\n'%b+''.join('Print Assumptions %s.\n'%n for n in names)
        open(scratch+'/pa.v','w').write(t)
        r=subprocess.run(['coqc','-Q','theories','Verif','pa.v'],cwd=scratch,capture_output=True,text=True)
        blocks=re.split(r'(?=Closed under|Axioms:)',r.stdout)[1:]
        for n,bl in zip(names,blocks):
            if any(re.search(r'\b'+re.escape(x.split('.')[1])+r'\b',bl) for x in broken) or n in [x.split('.')[1] for x in broken]: failed.append(n)
    return {'broken_lemmas':broken,'theorems_failed':failed}
for m in muts:
    r=run(m)
    rec={'definition':m['def'],'file':'rocq/theories/'+m['file'],'edit':m['old']+'  ==>  '+m['new'],'claim_broken':m['claim'],**r,'theorems_tightened':m.get('tightened',[])}
    print(json.dumps(rec),flush=True)
    if 'error' not in r: open(log,'a').write(json.dumps(rec)+'\n')
shutil.rmtree(scratch,ignore_errors=True)
