# like light.py, but admits each failing proof (in the scratch copy) and goes on, to list every statement that fails by itself
import json,sys,os,re,subprocess,shutil
muts=json.load(open(sys.argv[1])); chain=sys.argv[2].split(','); want=sys.argv[3]
S='/tmp/deep'; T='/verif/rocq/theories'
for mu in muts:
    shutil.rmtree(S,ignore_errors=True); os.makedirs(S)
    for f in os.listdir(T):
        if f.endswith('.vo') and f[:-3] not in chain: os.symlink(T+'/'+f,S+'/'+f)
    for c in chain: shutil.copy(f'{T}/{c}.v',S)
    p=f"{S}/{mu['file']}"; s=open(p).read(); k=mu.get('occurrence',0); i=-1
    for _ in range(k+1): i=s.find(mu['old'],i+1)
    if i<0: print('NOT FOUND',mu['old'][:60]); continue
    open(p,'w').write(s[:i]+mu['new']+s[i+len(mu['old']):])
    fails=[]
    for c in chain:
        for _ in range(25):
            r=subprocess.run(['timeout','300','coqc','-Q',S,'Verif',f'{S}/{c}.v'],capture_output=True,text=True)
            if r.returncode==0: break
            g=re.findall(r'line (\d+)',r.stderr)
            if not g: fails.append(c+'(timeout)'); break
            L=open(f'{S}/{c}.v').read().split('\n'); ln=int(g[-1])-1
            st=max(j for j in range(ln+1) if re.match(r"\s*(?:Lemma|Theorem|Example|Corollary)\s",L[j]))
            name=re.match(r"\s*\w+\s+([\w']+)",L[st]).group(1); fails.append(name)
            print(name,r.stderr[:300]) if fails.count(name)>1 else None
            pr=next((j for j in range(st,len(L)) if 'Proof' in L[j]),None); en=next(j for j in range(pr,len(L)) if 'Qed.' in L[j])
            head=L[pr][:L[pr].index('Proof')]
            L[pr:en+1]=[head+('Proof using c_pos.' if 'using c_pos' in L[pr] else 'Proof.')+' Admitted.']
            open(f'{S}/{c}.v','w').write('\n'.join(L))
        else: fails.append(c+'(many)'); break
        if r.returncode: break
    print(mu['edit'],fails,flush=True)
