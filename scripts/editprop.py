#!/usr/bin/env python3
# editprop.py ID FIELD TEXT: change a field of a property
import json,sys
i,f,t=sys.argv[1:4]
L=[json.loads(l) for l in open('/verif/properties.jsonl')]
assert any(p['id']==i for p in L)
for p in L:
    if p['id']==i: p[f]=t
open('/verif/properties.jsonl','w').write(''.join(json.dumps(p,ensure_ascii=False)+'\n' for p in L))
