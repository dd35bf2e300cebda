"""Append or replace properties: reads JSON objects (one per line) from stdin, keyed by id."""
import json,sys,os
p=os.path.join(os.path.dirname(__file__),'..','properties.jsonl')
props=[json.loads(l) for l in open(p) if l.strip()]
idx={q['id']:i for i,q in enumerate(props)}
for l in sys.stdin:
    if not l.strip(): continue
    q=json.loads(l)
    for k in ('id','title','statement','quantifier','why_tests_cant','anchors'): assert k in q,(q,k)
    if q['id'] in idx: props[idx[q['id']]]=q
    else: idx[q['id']]=len(props); props.append(q)
with open(p,'w') as f:
    for q in sorted(props,key=lambda q:int(q['id'][1:])): f.write(json.dumps(q)+'\n')
