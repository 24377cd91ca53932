#!/usr/bin/env python3
"""Regenerate MANIFEST.json from the theorem names (Theorem Cnn_...) in rocq/theories and tools/notes.json."""
import json,re,glob,os
root=os.path.dirname(os.path.dirname(os.path.abspath(__file__)))
th={}
for f in sorted(glob.glob(root+'/rocq/theories/*.v')):
    src=re.sub(r'\(\*.*?\*\)','',open(f).read(),flags=re.S)
    for m in re.finditer(r'^\s*Theorem\s+(C\d\d+)_(\w+)',src,flags=re.M):
        th.setdefault(m.group(1),[]).append(m.group(1)+'_'+m.group(2))
notes=json.load(open(root+'/tools/notes.json'))
claims=[]
for l in open(root+'/properties.jsonl'):
    if not l.strip(): continue
    d=json.loads(l); i=d['id']
    ts=th.get(i,[]); n=notes.get(i,{})
    if not ts and n.get('status')!='not_applicable': continue
    claims.append({"property":i,"status":n.get('status','proved'),"theorems":ts,"note":n.get('note','')})
json.dump({"claims":claims},open(root+'/MANIFEST.json','w'),indent=1,ensure_ascii=False)
ids={json.loads(l)['id'] for l in open(root+'/properties.jsonl') if l.strip()}
print('claims',len(claims),'of',len(ids),'missing',sorted(ids-{c['property'] for c in claims}),'orphans',sorted(set(th)-ids))
