"""Set manifest notes: reads lines 'Cnn: text' from stdin."""
import json,sys,os
p=os.path.join(os.path.dirname(os.path.abspath(__file__)),'notes.json')
n=json.load(open(p))
for l in sys.stdin:
    if l.strip():
        i,t=l.split(':',1); n.setdefault(i.strip(),{})['note']=t.strip()
json.dump(dict(sorted(n.items(),key=lambda kv:int(kv[0][1:]))),open(p,'w'),indent=0)
