#!/usr/bin/env python3
"""Seeded-bug harness.  seed.py MUTANTS.json : for each mutant, copy rocq/ to a
scratch directory, apply the edit to the model, rebuild, and append to
seeded/LOG.jsonl which statements no longer check.
Mutant: {"file","old","new","definition","edit","claim","occurrence"(opt)}"""
import json,sys,os,re,subprocess,shutil
V=os.path.abspath(os.path.join(os.path.dirname(__file__),'..'))
S='/tmp/scratch'
def stmts(th):
    """name -> (file, set of names used)"""
    out={}
    for f in sorted(os.listdir(th)):
        if not f.endswith('.v'): continue
        s=open(os.path.join(th,f)).read()
        pos=[(m.start(),m.group(2)) for m in re.finditer(r'^\s*(?:Local |Global )?(Lemma|Theorem|Example|Corollary|Definition|Fixpoint|Fact|Remark|Ltac|Inductive|Record)\s+([\w\']+)',s,re.M)]
        for i,(p,n) in enumerate(pos):
            e=pos[i+1][0] if i+1<len(pos) else len(s)
            out[n]=(f,p,set(re.findall(r"[A-Za-z_][\w']*",s[p:e])))
    return out
def main():
    muts=json.load(open(sys.argv[1]))
    st=stmts(os.path.join(V,'rocq/theories'))
    log=os.path.join(V,'seeded/LOG.jsonl')
    for m in muts:
        subprocess.run(f'rm -rf {S} && cp -a {V}/rocq {S}',shell=True,check=True)
        p=os.path.join(S,'theories',m['file'])
        s=open(p).read()
        k=m.get('occurrence',0)
        i=-1
        for _ in range(k+1):
            i=s.find(m['old'],i+1)
        if i<0: print('NOT FOUND',m['file'],m['old'][:60]); continue
        s2=s[:i]+m['new']+s[i+len(m['old']):]
        open(p,'w').write(s2)
        if m.get('drop'):
            cp=os.path.join(S,'_CoqProject'); t=open(cp).read()
            for d in m['drop']: t=t.replace('theories/%s.v\n'%d,'')
            open(cp,'w').write(t)
        subprocess.run('coq_makefile -f _CoqProject -o Makefile >/dev/null',shell=True,cwd=S)
        r=subprocess.run('timeout 1500 make -k -j%s'%os.environ.get('J','2'),shell=True,cwd=S,capture_output=True,text=True)
        fails=[]
        for f,l in re.findall(r'File "\./theories/(\w+\.v)", line (\d+)',r.stderr+r.stdout):
            txt=open(os.path.join(S,'theories',f)).read().split('\n')[:int(l)]
            # skip warnings: keep only if error follows
            names=re.findall(r'^\s*(?:Local |Global )?(?:Lemma|Theorem|Example|Corollary|Definition|Fixpoint)\s+([\w\']+)','\n'.join(txt),re.M)
            fails.append(names[-1] if names else f)
        errs=re.findall(r'Error:',r.stderr+r.stdout)
        if r.returncode==0: fails=[]
        dep=set(fails); ch=True
        while ch:
            ch=False
            for n,(f,_,u) in st.items():
                if n not in dep and u & dep: dep.add(n); ch=True
        top=sorted(n for n in dep if re.match(r'C\d\d_',n))
        claim_top=[n for n in top if any(n.startswith(c+'_') for c in re.findall(r'C\d\d',m['claim']))]
        rec={"definition":m['definition'],"edit":m['edit'],"claim":m['claim'],
             "first_statements_failing":fails,"theorems_failed":claim_top or top,"killed":bool(r.returncode),
             "theorems_tightened":m.get('tightened',[])}
        if r.returncode and not errs: rec['note']='build failed without Coq error (timeout?)'
        open(log,'a').write(json.dumps(rec)+'\n')
        print(('KILLED ' if rec['killed'] else 'SURVIVED ')+m['definition'],m['edit'],fails,rec['theorems_failed'][:4],flush=True)
main()
