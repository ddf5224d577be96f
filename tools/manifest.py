#!/usr/bin/env python3
"""Build MANIFEST.json: every `Theorem Cnn_...` in rocq/theories/*Props.v is attached to property Cnn (and to the
extra ids named in EXTRA). A property whose theorems contain a `_refuted` or only `_partial` is partial unless listed in FULL."""
import re,glob,json,os
os.chdir('/verif')
NOTES=json.load(open('tools/notes.json'))
EXTRA={'C08_array_queue_fifo_partial':['C10']}
th={}
for f in sorted(glob.glob('rocq/theories/*Props.v')+glob.glob('rocq/theories/*Props[0-9].v')):
    for m in re.finditer(r'^(?:Theorem)\s+((C\d+)_\w+)',open(f).read(),re.M):
        for c in [m.group(2)]+EXTRA.get(m.group(1),[]): th.setdefault(c,[]).append(m.group(1))
claims=[]
for l in open('properties.jsonl'):
    d=json.loads(l); c=d['id']; t=th.get(c,[])
    if not t: st='partial'; note=NOTES.get(c,'Not proved yet.')
    else:
        part=any(x.endswith('_partial') for x in t) or any(x.endswith('_refuted') for x in t)
        st='partial' if part else 'proved'
        if c in NOTES.get('_full',[]): st='proved'
        note=NOTES.get(c,'')
    claims.append(dict(property=c,status=st,theorems=t,note=note))
json.dump(dict(claims=claims),open('MANIFEST.json','w'),indent=1)
print({s:sum(1 for c in claims if c['status']==s) for s in('proved','partial')}, 'no theorem:',[c['property'] for c in claims if not c['theorems']])
