#!/usr/bin/env python3
"""Print Assumptions for every theorem of MANIFEST.json; writes ASSUMPTIONS.md."""
import json,subprocess,os,re,tempfile
V=os.path.abspath(os.path.join(os.path.dirname(__file__),'..'))
T=os.path.join(V,'rocq/theories')
where={}
for f in os.listdir(T):
    if f.endswith('.v'):
        for n in re.findall(r"^\s*(?:Theorem|Lemma|Corollary|Example|Fact)\s+([\w']+)",open(os.path.join(T,f)).read(),re.M):
            where.setdefault(n,f[:-2])
cl=json.load(open(os.path.join(V,'MANIFEST.json')))['claims']
names=[(c['property'],t) for c in cl for t in c['theorems']]
mods=sorted({where[t.split('.')[-1]] for _,t in names})
src=''.join(f'Require Verif.{m}.\n' for m in mods)
for _,t in names: src+=f'Goal True. idtac "@@ {t}". Abort.\nPrint Assumptions Verif.{where[t]}.{t}.\n'
d=tempfile.mkdtemp(); p=os.path.join(d,'a.v'); open(p,'w').write(src)
o=subprocess.run(['coqc','-Q',T,'Verif',p],capture_output=True,text=True)
if o.returncode: print(o.stderr); raise SystemExit(1)
res={}; cur=None
for l in o.stdout.split('\n'):
    if l.startswith('@@ '): cur=l[3:]; res[cur]=[]
    elif cur: res[cur].append(l)
groups={}
for p,t in names:
    ax=tuple(sorted(set(re.findall(r'^([\w.\']+)\s*:','\n'.join(res[t]),re.M)) - {'Axioms'}))
    groups.setdefault(ax,[]).append((p,t,where[t]))
out='# What Print Assumptions lists for each theorem of MANIFEST.json\n\nGenerated by `tools/assum.py`.\n'
for ax,ts in sorted(groups.items(),key=lambda x:len(x[0])):
    out+='\n## '+('Closed under the global context' if not ax else 'Axioms of the standard library: '+', '.join('`%s`'%a for a in ax))+f' ({len(ts)} theorems)\n\n'
    by={}
    for p,t,w in ts: by.setdefault(p,[]).append(t)
    for p in sorted(by): out+=f'* **{p}**: '+', '.join(by[p])+'\n'
open(os.path.join(V,'ASSUMPTIONS.md'),'w').write(out)
for ax,ts in groups.items(): print(len(ts),ax)
