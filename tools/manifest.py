#!/usr/bin/env python3
"""Regenerates MANIFEST.json.  The theorem names are collected from theories/*Props*.v by their Cnn_ prefix."""
import json,re,glob,os
os.chdir(os.path.dirname(os.path.abspath(__file__))+'/..')
notes=json.load(open('tools/notes.json'))
thms={}
for f in sorted(glob.glob('rocq/theories/*Props*.v')):
    for m in re.finditer(r'^Theorem\s+(C(\d+)_\w+)',open(f).read(),re.M):
        thms.setdefault('C'+m.group(2),[]).append(m.group(1))
claims=[]
for l in open('properties.jsonl'):
    p=json.loads(l)['id']
    n=notes.get(p,{})
    t=thms.get(p,[])
    claims.append({"property":p,"status":n.get('status','partial' if not t else 'proved'),"theorems":t,"note":n.get('note','not done yet' if not t else '')})
json.dump({"claims":claims},open('MANIFEST.json','w'),indent=1)
print(sum(c['status']=='proved' for c in claims),'proved of',len(claims), [c['property'] for c in claims if not c['theorems']])
